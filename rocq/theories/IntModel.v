(** Model of the numerical integration of a DMP: the methods Dmp inherits from
    dmpbbo/dynamicalsystems/DynamicalSystem.py. [differential_equation] of a DMP assigns to its
    subsystems, so the object is passed on from call to call. *)
From Coq Require Import String.
From Verif Require Import Base DynModel ParamModel DmpModel.
Open Scope R_scope.

Section Integrate.
Variable predict_fn : nat -> list (string * pval) -> R -> res R.

(** DynamicalSystem.py:166-177 *)
Definition m_step_euler (m : dmp) (dt : R) (x : list R) : res (dmp * list R * list R) :=
  if Nat.eqb (length x) (dim_x m) then
    let* p := m_diffeq predict_fn m x in
    let '(m, xd) := p in
    let* x' := vop Rplus x (map (Rmult dt) xd) in
    Ok (m, x', xd)
  else Err ValueError.
(** l.179-203 *)
Definition m_step_rk (m : dmp) (dt : R) (x : list R) : res (dmp * list R * list R) :=
  if Nat.eqb (length x) (dim_x m) then
    let* p := m_diffeq predict_fn m x in
    let '(m, k1) := p in
    let* i2 := vop Rplus x (map (Rmult (dt * 0.5)) k1) in
    let* p := m_diffeq predict_fn m i2 in
    let '(m, k2) := p in
    let* i3 := vop Rplus x (map (Rmult (dt * 0.5)) k2) in
    let* p := m_diffeq predict_fn m i3 in
    let '(m, k3) := p in
    let* i4 := vop Rplus x (map (Rmult dt) k3) in
    let* p := m_diffeq predict_fn m i4 in
    let '(m, k4) := p in
    let* s23 := vop Rplus k2 k3 in
    let* s123 := vop Rplus k1 (map (Rmult 2) s23) in
    let* s := vop Rplus s123 k4 in
    let* x' := vop Rplus x (map (fun v => dt * v / 6) s) in
    let* p := m_diffeq predict_fn m x' in
    let '(m, xd) := p in
    Ok (m, x', xd)
  else Err ValueError.
Definition m_step (me : int_method) := match me with RungeKutta => m_step_rk | Euler => m_step_euler end.
(** l.205-222, the loops; t is the previous time, x the previous state *)
Fixpoint m_loop (me : int_method) (m : dmp) (t : R) (x : list R) (ts : list R) : res (dmp * solution) :=
  match ts with
  | [] => Ok (m, ([], []))
  | t' :: ts' =>
    let* p := m_step me m (t' - t) x in
    let '(m, x', xd') := p in
    let* q := m_loop me m t' x' ts' in
    let '(m, (xs, xds)) := q in
    Ok (m, (x' :: xs, xd' :: xds))
  end.
(** l.205-222: integrate_start is Dmp.py:193-236; xs[0, :] of an empty array is an IndexError, after
    the right-hand side has been evaluated *)
Definition m_integrate (me : int_method) (m : dmp) (ts : list R) : res (dmp * solution) :=
  let* p := m_start predict_fn m None in
  let '(m, x, xd) := p in
  match ts with
  | [] => Err IndexError
  | t :: ts' => let* q := m_loop me m t x ts' in
                let '(m, (xs, xds)) := q in
                Ok (m, (x :: xs, xd :: xds))
  end.
End Integrate.
