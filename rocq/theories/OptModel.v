(** Model of the cost functions of the demos of black-box optimization: demos/python/bbo/demo_bbo.py and
    demo_bbo_multiple_cost_components.py. *)
From Verif Require Import Base DynModel UpdatersModel.
Open Scope R_scope.

(** np.linalg.norm of a vector *)
Definition norm (v : list R) : R := sqrt (rsum (map (fun x => x * x) v)).
(** demo_bbo.py:43-52, DemoCostFunctionDistanceToPoint.evaluate *)
Definition distance_eval (point sample : list R) : res cost :=
  let* d := vop Rminus sample point in
  Ok (CVec [norm d]).
(** demo_bbo_multiple_cost_components.py:45-56, DemoCostFunctionDistanceToPoint.evaluate *)
Definition regularized_eval (point : list R) (weight : R) (sample : list R) : res cost :=
  let* d := vop Rminus sample point in
  let dist := norm d in
  let regularization := weight * norm sample in
  Ok (CVec [dist + regularization; dist; regularization]).
