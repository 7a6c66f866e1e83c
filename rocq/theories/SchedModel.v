(** Model of dmpbbo/dmps/DmpWithSchedules.py: construction, training, execution. Its parameter vectors
    and the bounds of schedules are in ParamModel. *)
From Coq Require Import String.
From Verif Require Import Base DynModel ParamModel TrajModel DmpModel.
Open Scope R_scope.

(** l.36-49: the attributes which Dmp does not have: _func_apps_schedules, min_schedules and
    max_schedules. The function approximators for schedules are objects which nobody else changes. *)
Record wdmp := Wdmp { w_dmp : dmp; w_fas : list fa; w_lo : sbound; w_hi : sbound }.
Definition upd_dmp (w : wdmp) (m : dmp) : wdmp := Wdmp m (w_fas w) (w_lo w) (w_hi w).
(** l.36-49; the remaining keyword arguments are those of Dmp *)
Definition new_wdmp (ty : dmp_type) (tau : R) (y0 attr : list R) (fas : option (list fa)) (scheds : list fa)
    (lo hi : sbound_arg) (kw : dmp_kw) : res wdmp :=
  let* m := new_dmp ty tau y0 attr fas kw in
  Ok (Wdmp m scheds (make_bound (length scheds) lo) (make_bound (length scheds) hi)).
(** l.79-84 *)
Definition dim_schedules (w : wdmp) : nat := length (w_fas w).

(** x[self.PHASE], with one element *)
Definition phase_of (m : dmp) (x : list R) : res R := let* p := get_ix (ix_phase m) x in one p.

Section Fns.
(** predictions and training of the function approximators of the movement, see DmpModel, and of the
    i-th schedule *)
Variable predict_fn : nat -> list (string * pval) -> R -> res R.
Variable train_fn : nat -> list R -> list R -> res (list (string * pval)).
Variable sched_fn : nat -> list (string * pval) -> R -> res R.
Variable sched_train : nat -> list R -> list R -> res (list (string * pval)).

(** self._func_apps_schedules[i_dim].predict(phase) for all i_dim (l.132-134, 160-162, 178-180).
    FunctionApproximator.predict, l.58-74, refuses to predict if it is not trained or was trained with
    inputs of another size. Simplification: the predictions for a phase signal are computed one by
    one. *)
Definition predict_sched (w : wdmp) (ph : R) : res (list R) :=
  mapM (fun i => let* f := nth_res (w_fas w) i in
                 match f_dim f with
                 | Some 1%nat => sched_fn i (f_model f) ph
                 | _ => Err ValueError
                 end) (seq 0 (length (w_fas w))).
(** l.111-136: the result of analytical_solution and the schedules *)
Definition ana_sched (w : wdmp) (ts : option (list R)) : res (ana_result * input) :=
  let m := w_dmp w in
  let* ts := match ts with
             | Some ts => Ok ts
             | None => match m_ts_train m with Some ts => Ok ts | None => Err ValueError end
             end in
  let* r := ana predict_fn m ts false in
  let* rows := mapM (fun x => let* ph := phase_of m x in predict_sched w ph) (a_xs r) in
  let* s := enforce_bounds (w_lo w) (w_hi w) (length (w_fas w)) (In2 (Mat (length (w_fas w)) rows)) in
  Ok (r, s).
(** l.150-165 *)
Definition start_sched (w : wdmp) (y : option (list R)) : res (wdmp * list R * list R * input) :=
  let* p := m_start predict_fn (w_dmp w) y in
  let '(m, x, xd) := p in
  let* ph := phase_of m x in
  let* s := predict_sched w ph in
  let* s := enforce_bounds (w_lo w) (w_hi w) (length (w_fas w)) (In1 s) in
  Ok (upd_dmp w m, x, xd, s).
(** DynamicalSystem.py:157-164; differential_equation changes the object only in ways that later calls
    do not notice (C91_pure) *)
Definition rate_of (m : dmp) (x : list R) : res (list R) := let* p := m_diffeq predict_fn m x in Ok (snd p).
(** l.167-183 *)
Definition step_sched (w : wdmp) (dt : R) (x : list R) : res (list R * list R * input) :=
  let* p := step_rk (rate_of (w_dmp w)) (dim_x (w_dmp w)) dt x in
  let '(x, xd) := p in
  let* ph := phase_of (w_dmp w) x in
  let* s := predict_sched w ph in
  let* s := enforce_bounds (w_lo w) (w_hi w) (length (w_fas w)) (In1 s) in
  Ok (x, xd, s).
(** l.185-207: the trajectory of Dmp.states_as_trajectory with the schedules as misc *)
Definition as_traj_sched (w : wdmp) (ts : list R) (xs xds : list (list R)) (s : mat) : res traj :=
  let m := w_dmp w in
  let* rows := states_as_rows m xs xds in
  let y := map (fun r => fst (fst r)) rows in
  let yd := map (fun r => snd (fst r)) rows in
  let ydd := map (fun r => snd r) rows in
  let table l := V2 (Mat (m_dim m) l) in
  let* t := new_traj ts (table y) (Some (table yd)) (Some (table ydd)) None in
  let '(t, r) := set_misc t (V2 s) in
  let* _ := r in Ok t.

(** the argument "schedules": nothing, a numpy array or a list *)
Inductive sched_arg := GNone | GArr (a : nd) | GList (l : list (list R)).
Definition nd_data (a : nd) : list R := match a with V1 l => l | V2 m => List.concat (mrows m) end.
(** the truth value of numpy arrays and of lists *)
Definition arr_truth (a : nd) : res bool :=
  match nd_data a with
  | [] => Ok false
  | [v] => Ok (if Req_EM_T v 0 then false else true)
  | _ => Err ValueError
  end.
(** "schedules or trajectory.misc" (l.97), then targets.shape (l.104), which lists do not have, and
    targets.shape[1], which vectors do not have *)
Definition sched_targets (w : wdmp) (t : traj) (g : sched_arg) : res mat :=
  let* a := match g with
            | GNone => Ok (tj_misc t)
            | GArr a => let* b := arr_truth a in Ok (if b then Some a else tj_misc t)
            | GList [] => Ok (tj_misc t)
            | GList _ => Err AttributeError
            end in
  match a with
  | None => Err ValueError
  | Some (V1 _) => Err IndexError
  | Some (V2 s) => if Nat.eqb (mcols s) (length (w_fas w)) then Ok s else Err ValueError
  end.
(** l.86-109. The inputs have one column. What the object looks like after an exception is not
    modelled. *)
Definition train_sched (w : wdmp) (t : traj) (g : sched_arg) : res wdmp :=
  let* m := m_train predict_fn train_fn (w_dmp w) t in
  let* r := m_ana predict_fn m None false in
  let* phs := mapM (phase_of m) (a_xs r) in
  let* s := sched_targets w t g in
  let* fs := mapM (fun i => let* f := nth_res (w_fas w) i in
                            let* ps := sched_train i phs (col i (mrows s)) in
                            Ok (Fa ps (Some 1%nat) (f_sel f))) (seq 0 (length (w_fas w))) in
  Ok (Wdmp m fs (w_lo w) (w_hi w)).
(** l.51-77. The keyword argument "schedules" is passed to the constructor as well, which ignores it. *)
Definition from_traj_sched (ty : dmp_type) (t : traj) (fas : option (list fa)) (scheds : list fa)
    (lo hi : sbound_arg) (kw : dmp_kw) (g : sched_arg) : res wdmp :=
  let* tau := last_res (tj_ts t) in
  let* y0 := nth_res (mrows (tj_ys t)) 0 in
  let* yN := last_res (mrows (tj_ys t)) in
  let* w := new_wdmp ty tau y0 yN fas scheds lo hi kw in
  train_sched w t g.
End Fns.
