(** Specification vocabulary for DMPs with schedules. *)
From Coq Require Import String.
From Verif Require Import Base DynModel ParamModel ParamSpec TrajModel DmpModel DmpSpec SchedModel.
Open Scope R_scope.

Section Spec.
Variable sched_fn : nat -> list (string * pval) -> R -> res R.
(** all function approximators for schedules have been trained with phases, and can predict *)
Definition sched_ready (w : wdmp) : Prop := forall i f, nth_error (w_fas w) i = Some f ->
  f_dim f = Some 1%nat /\ forall ph, exists v, sched_fn i (f_model f) ph = Ok v.
(** the prediction for schedule i *)
Definition sched_val (w : wdmp) (ph : R) (i : nat) : R :=
  match nth_error (w_fas w) i with
  | Some f => match sched_fn i (f_model f) ph with Ok v => v | Err _ => 0 end
  | None => 0
  end.
End Spec.
(** a value limited to the bounds of schedule i *)
Definition limited (lo hi : sbound_arg) (i : nat) (v : R) : R :=
  let u := match arg_at lo i with Some l => Rmax l v | None => v end in
  match arg_at hi i with Some h => Rmin h u | None => u end.
(** bounds the code can work with (see C36) *)
Definition bounded_by (w : wdmp) (lo hi : sbound_arg) : Prop :=
  let n := length (w_fas w) in
  usable n lo /\ usable n hi /\ w_lo w = make_bound n lo /\ w_hi w = make_bound n hi.
(** the phase at time t: the closed-form solution of the phase system *)
Definition phase_at (m : dmp) (t ph : R) : Prop := exists xd, sub_ana (m_phase m) [t] = Ok ([[ph]], [[xd]]).
(** what schedule arguments of a single time step look like: a vector, or after clipping a column *)
Definition step_values (s : input) : list R := match s with In1 l => l | In2 m => List.concat (mrows m) end.
(** changes of a DMP which leave its clock alone: neither the duration is set nor is it trained *)
Definition same_clock (c : change) : Prop := match c with XTau _ | XTrain _ => False | _ => True end.
(** the function approximators of n schedules return the training targets at the phases of times ts *)
Definition fits_schedules (sched_fn : nat -> list (string * pval) -> R -> res R)
    (sched_train : nat -> list R -> list R -> res (list (string * pval))) (m : dmp) (ts : list R) (s : mat) (n : nat) : Prop :=
  forall i phs ps k, (i < n)%nat -> length phs = length ts ->
    (forall j, (j < length ts)%nat -> phase_at m (nth j ts 0) (nth j phs 0)) ->
    sched_train i phs (col i (mrows s)) = Ok ps -> (k < length ts)%nat -> sched_fn i ps (nth k phs 0) = Ok (mget s k i).
(** after training, schedules can be predicted *)
Definition schedules_predict (sched_fn : nat -> list (string * pval) -> R -> res R)
    (sched_train : nat -> list R -> list R -> res (list (string * pval))) : Prop :=
  forall i phs ys ps ph, sched_train i phs ys = Ok ps -> exists v, sched_fn i ps ph = Ok v.
