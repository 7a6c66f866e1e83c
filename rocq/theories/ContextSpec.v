(** Specification vocabulary for contextual DMPs. *)
From Coq Require Import String.
From Verif Require Import Base DynModel ParamModel ParamSpec TrajModel DmpModel DmpSpec ContextModel.
Open Scope R_scope.

(** A contextual DMP that can be used: there is one policy parameter function for each of the selected
    parameters of the DMP, an exponential goal system has the dimension of the DMP and its attractor,
    and is not rescaled. *)
Definition exp_goal_fits (m : dmp) : Prop :=
  match m_goal m with Some (SubE e) => length (e_init e) = m_dim m /\ m_req m = false | _ => True end.
Definition usable_ctx (c : ctx) (fs : list fa) : Prop :=
  c_ppf c = Some fs /\ dmp_size (pdmp_of (c_dmp c)) = Ok (length fs) /\
  selectable_dmp (pdmp_of (c_dmp c)) /\ synced (c_dmp c) /\ exp_goal_fits (c_dmp c).

(** the predictions of the policy parameter functions for the task parameters q: one number each *)
Definition predicted (ppf_predict : nat -> list (string * pval) -> mat -> res (list R)) (fs : list fa)
    (q : input) (v : list R) : Prop :=
  length v = length fs /\
  forall i f, nth_error fs i = Some f -> predict f (ppf_predict i) q = Ok [nth i v 0].

(** task parameters as they are passed to set_task_params: a matrix with one row *)
Definition task (q : list R) : input := In2 (Mat (length q) [q]).

(** DMPs that are the same except for their parameters: the values of the selected parameters of the
    function approximators, and the attractor (also in the goal system) if it is selected *)
Definition same_goal_system (g g' : option sub) : Prop :=
  match g, g' with
  | Some (SubE e), Some (SubE e') => e_tau e' = e_tau e /\ e_init e' = e_init e /\ e_alpha e' = e_alpha e
  | _, _ => g' = g
  end.
Definition same_but_params (m m' : dmp) : Prop :=
  m_tau m' = m_tau m /\ m_dim m' = m_dim m /\ m_x_init m' = m_x_init m /\ m_y0 m' = m_y0 m /\ m_sel m' = m_sel m /\
  m_spring m' = m_spring m /\ m_phase m' = m_phase m /\ m_gating m' = m_gating m /\ m_damping m' = m_damping m /\
  m_req m' = m_req m /\ m_scaling m' = m_scaling m /\ m_amps m' = m_amps m /\ m_ts_train m' = m_ts_train m /\
  same_fas (fas_of (pdmp_of m)) (fas_of (pdmp_of m')) /\
  (~ In "goal"%string (m_sel m) -> m_attr m' = m_attr m /\ m_goal m' = m_goal m) /\
  same_goal_system (m_goal m) (m_goal m').

(** ** Histories *)
(** calls of methods, without those that change the DMP for good *)
Inductive ccall :=
| KTask (q : input) | KAna (q : input) (ts : option (list R)) (suppress : bool) | KStart (q : input) | KRate (x : list R).
Section Calls.
Variable predict_fn : nat -> list (string * pval) -> R -> res R.
Variable ppf_predict : nat -> list (string * pval) -> mat -> res (list R).
(** the contextual DMP after a call. After an exception in set_task_params or analytical_solution the
    caller may go on. *)
Definition ccall1 (c : ctx) (k : ccall) : res ctx :=
  match k with
  | KTask q => Ok (fst (set_task ppf_predict c q))
  | KAna q ts s => Ok (fst (c_ana predict_fn ppf_predict c q ts s))
  | KStart q => let* r := c_start predict_fn ppf_predict c q None in Ok (fst (fst r))
  | KRate x => let* r := c_diffeq predict_fn c x in Ok (fst r)
  end.
Fixpoint ccalls (c : ctx) (ks : list ccall) : res ctx :=
  match ks with
  | [] => Ok c
  | k :: ks' => let* c' := ccall1 c k in ccalls c' ks'
  end.
(** what the calls return, without the object *)
Definition start_values (c : ctx) (q : input) : res (list R * list R) :=
  let* r := c_start predict_fn ppf_predict c q None in Ok (snd (fst r), snd r).
Definition rates_for (c : ctx) (q : input) (x : list R) : res (list R) :=
  let '(c', r) := set_task ppf_predict c q in
  let* _ := r in let* p := c_diffeq predict_fn c' x in Ok (snd p).
End Calls.

(** ** Training *)
(** function approximators which return their training targets: after training, the prediction for
    each single input is the target *)
Definition interpolates (ppf_predict : nat -> list (string * pval) -> mat -> res (list R))
    (ppf_train : nat -> mat -> list R -> res (list (string * pval))) (xs : list (list R)) : Prop :=
  forall i f ys f', length ys = length xs ->
    train f (fun x => ppf_train i x ys) (In2 (Mat (length (hd [] xs)) xs)) = (f', Ok tt) ->
    forall k, (k < length xs)%nat ->
      predict f' (ppf_predict i) (task (nth k xs [])) = Ok [nth k ys 0].
(** the k-th demonstration *)
Definition demo_at (data : list (list R * traj)) (k : nat) (q : list R) (t : traj) : Prop := nth_error data k = Some (q, t).
(** the mean of a number over the demonstrations *)
Definition mean_over (data : list (list R * traj)) (f : traj -> R) : R :=
  rsum (map (fun p => f (snd p)) data) / INR (length data).
(** demonstrations with the same duration, start and end *)
Definition alike (data : list (list R * traj)) (tau : R) (y0 yN : list R) : Prop :=
  Forall (fun p => last (tj_ts (snd p)) 0 = tau /\ nth 0 (mrows (tj_ys (snd p))) [] = y0 /\
                   last (mrows (tj_ys (snd p))) [] = yN) data.
(** training a function approximator yields its selected parameters as arrays *)
Definition yields (train_fn : nat -> list R -> list R -> res (list (string * pval))) (sel : list string) : Prop :=
  NoDup sel /\ forall i phs ys ps, train_fn i phs ys = Ok ps ->
    forall n, In n sel -> exists a, lookup ps n = Some (PArr a) /\ proper_array a.
(** the names that concern function approximators *)
Definition fa_names (ns : names) : list string :=
  filter (fun n => negb (String.eqb n "goal")) (name_list ns).
(** demonstrations on which the trained function approximators differ in the selected parameters only
    (and have models with distinct names) *)
Definition differ_in_selection (predict_fn : nat -> list (string * pval) -> R -> res R)
    (train_fn : nat -> list R -> list R -> res (list (string * pval))) (m : dmp) (data : list (list R * traj)) : Prop :=
  forall q q' t t' mk mk' vk vk', In (q, t) data -> In (q', t') data ->
    train_copy predict_fn train_fn m t = Ok (mk, vk) -> train_copy predict_fn train_fn m t' = Ok (mk', vk') ->
    same_fas (fas_of (pdmp_of mk)) (fas_of (pdmp_of mk')) /\
    Forall (fun f => NoDup (map fst (f_model f))) (fas_of (pdmp_of mk)).
