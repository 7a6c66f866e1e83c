(** C97: arrays are shared between the caller and the objects of the library. *)
From Coq Require Import String.
From Verif Require Import Base DynModel ParamModel DmpModel IntModel AliasModel AliasDyn AliasFa AliasDmp AliasSpec AliasProofs5 AliasProofs6 AliasProofs7 AliasProofs2.
Open Scope R_scope.

(** The property "changing an array never changes what an object returns, unless a setter is called" holds of
    programs which leave alone the arrays that AliasSpec lists (and is false of other programs, below). A
    program is any sequence of new arrays, changes of single numbers in place, and calls; [run_...] executes
    it on shared memory, [by_value_...] with copies of all arrays. *)
Theorem C97_systems_partial : forall (c : ctor) (args : list (list R)) (es : list (event a_call)),
  careful_system c args es -> run_system c args es = by_value_system c args es.
Proof. exact careful_systems. Qed.
Print Assumptions C97_systems_partial.
(** x_init given to the constructor, times and results of analytical_solution, and the array given to y_init may
    be changed *)
Example C97_systems_case : let es := [EWrite 0 0 7; ENew [3; 4]; ECall ASetY [2%nat]; EWrite 2 1 9; ECall AGetX []] in
  careful_system (NewExponential 1 (CScal 2)) [[1; 2]; [5; 6]] es /\ by_value_system (NewExponential 1 (CScal 2)) [[1; 2]; [5; 6]] es = Ok [Ok []; Ok [[3; 4]]].
Proof. split; [|reflexivity]. cbn. repeat split; try (repeat constructor; fail); intros [H|H]; try discriminate; tauto. Qed.

Theorem C97_regressors_partial : forall (r : regressor) (f : fa) (args : list (list R)) (es : list (event f_call)),
  careful (f_meth (reg_train r) (reg_predict r)) fa_keeps fa_shares f args [] es ->
  run_fa (reg_train r) (reg_predict r) (reg_holds r) f args es = by_value (f_meth (reg_train r) (reg_predict r)) f args es.
Proof. exact careful_regressor. Qed.
Print Assumptions C97_regressors_partial.
Example C97_regressors_case : let f := Fa [("slope"%string, PArr (Arr [2%nat] [1; 2])); ("offset"%string, PArr (Arr [1%nat] [3]))] (Some 1%nat) None in
  let es := [ECall (FSelect (NList ["slope"%string])) []; ECall FGet []; EWrite 1 0 8; ECall FSet [0%nat]; EWrite 1 1 9; ECall FGet []] in
  careful (f_meth (reg_train (Wls true 0)) (reg_predict (Wls true 0))) fa_keeps fa_shares f [[5; 6]] [] es /\
  by_value (f_meth (reg_train (Wls true 0)) (reg_predict (Wls true 0))) f [[5; 6]] es = [Ok []; Ok [[1; 2]]; Ok []; Ok [[5; 6]]].
Proof. split; [|reflexivity]. cbn. repeat split; try (repeat constructor; fail); intros H; intuition discriminate. Qed.

Theorem C97_dmps_partial : forall (pf : nat -> list (string * pval) -> R -> res R) (tf : nat -> list R -> list R -> res (list (string * pval)))
  (c : mctor) (args : list (list R)) (es : list (event m_call)),
  careful_dmp pf tf c args es -> run_dmp pf tf c args es = by_value_dmp pf tf c args es.
Proof. exact careful_dmps. Qed.
Print Assumptions C97_dmps_partial.
Example C97_dmps_case : forall pf tf, let es := [EWrite 0 0 7; ECall (MSelect (NList ["goal"%string])) []; ECall MGetParams []; EWrite 2 0 9; ENew [3; 4]; ECall MSetParams [3%nat]; ECall MGetAttr []] in
  careful_dmp pf tf (Mctor (Sct23 true true) 1 None None None None) [[1; 2]; [5; 6]] es /\
  by_value_dmp pf tf (Mctor (Sct23 true true) 1 None None None None) [[1; 2]; [5; 6]] es = Ok [Ok []; Ok [[5; 6]]; Ok []; Ok [[3; 4]]].
Proof. intros pf tf. split; [|reflexivity]. cbn. repeat split; try (repeat constructor; fail); intros H; intuition discriminate. Qed.

(** ** programs which are not careful *)
(** the state returned by integrate_start is the initial state of the system *)
Theorem C97_start_refuted : forall (tau a : R) (x0 xa : list R) (i : nat) (v : R), tau <> 0 -> length x0 = length xa -> (i < length x0)%nat ->
  let es := [ECall AStart []; EWrite 2 i v; ECall AGetX []] in
  exists xd, run_system (NewExponential tau (CScal a)) [x0; xa] es = Ok [Ok [x0; xd]; Ok [set_nth x0 i v]] /\
    by_value_system (NewExponential tau (CScal a)) [x0; xa] es = Ok [Ok [x0; xd]; Ok [x0]].
Proof. exact start_shares. Qed.
Print Assumptions C97_start_refuted.
(** the attractor given to the constructor stays shared *)
Theorem C97_attractor_refuted : forall (tau a : R) (x0 xa : list R) (i : nat) (v : R), (i < length xa)%nat ->
  let es := [EWrite 1 i v; ECall AGetAttr []] in
  run_system (NewExponential tau (CScal a)) [x0; xa] es = Ok [Ok [set_nth xa i v]] /\
  by_value_system (NewExponential tau (CScal a)) [x0; xa] es = Ok [Ok [xa]].
Proof. exact attractor_shares. Qed.
Print Assumptions C97_attractor_refuted.
(** after the initial state of a SigmoidSystem has been changed in place, its rates of change depend on whether
    they were asked for before *)
Theorem C97_cache_refuted : forall tau r q x0 v x : R, x0 <> 0 -> v <> 0 -> v <> x0 -> r <> 0 -> x <> 0 ->
  exists a b, a <> b /\
  run_system (NewSigmoid tau (CScal r) (CScal q)) [[x0]] [ECall AGetX []; EWrite 1 0 v; ENew [x]; ECall ADiffeq [2%nat]] = Ok [Ok [[x0]]; Ok [[a]]] /\
  run_system (NewSigmoid tau (CScal r) (CScal q)) [[x0]] [ENew [x]; ECall ADiffeq [1%nat]; ECall AGetX []; EWrite 3 0 v; ECall ADiffeq [1%nat]] =
    Ok [Ok [[b]]; Ok [[x0]]; Ok [[b]]].
Proof.
  intros tau r q x0 v x H0 Hv Hd Hr Hx. exists (r * x * (1 - x / capacity tau r q v)), (r * x * (1 - x / capacity tau r q x0)).
  split; [now apply capacity_differs|now apply stale_capacities].
Qed.
Print Assumptions C97_cache_refuted.
(** the parameters of a function approximator are views of the vector given to set_param_vector *)
Theorem C97_param_vector_refuted : forall tr pr ho (data v : list R) (i : nat) (w : R), length v = length data -> (i < length v)%nat ->
  let es := [ECall FSet [0%nat]; EWrite 0 i w; ECall FGet []] in
  run_fa tr pr ho (one_array (length data) data) [v] es = [Ok []; Ok [set_nth v i w]] /\
  by_value (f_meth tr pr) (one_array (length data) data) [v] es = [Ok []; Ok [v]].
Proof. exact param_vector_shares. Qed.
Print Assumptions C97_param_vector_refuted.
(** DMPs: the attractor given to the constructor, the vector given to set_param_vector, and the initial state *)
Theorem C97_dmp_refuted : forall pf tf (tau y0 y1 a0 a1 b0 b1 v : R), let c := Mctor Ijspeert tau None None None None in let args := [[y0; y1]; [a0; a1]] in
  let es1 := [EWrite 1 0 v; ECall MGetAttr []] in
  let es2 := [ENew [b0; b1]; ECall (MSelect (NList ["goal"%string])) []; ECall MSetParams [2%nat]; EWrite 2 0 v; ECall MGetParams []] in
  let es3 := [ECall MGetY []; EWrite 2 0 v; ECall MGetY []] in
  run_dmp pf tf c args es1 = Ok [Ok [[v; a1]]] /\ by_value_dmp pf tf c args es1 = Ok [Ok [[a0; a1]]] /\
  run_dmp pf tf c args es2 = Ok [Ok []; Ok []; Ok [[v; b1]]] /\ by_value_dmp pf tf c args es2 = Ok [Ok []; Ok []; Ok [[b0; b1]]] /\
  run_dmp pf tf c args es3 = Ok [Ok [[y0; y1]]; Ok [[v; y1]]] /\ by_value_dmp pf tf c args es3 = Ok [Ok [[y0; y1]]; Ok [[y0; y1]]].
Proof.
  intros pf tf tau y0 y1 a0 a1 b0 b1 v. destruct (dmp_attractor_shares pf tf tau y0 y1 a0 a1 v) as [H1 H2].
  destruct (dmp_goal_shares pf tf tau y0 y1 a0 a1 b0 b1 v) as [H3 H4]. destruct (dmp_start_shares pf tf tau y0 y1 a0 a1 v) as [H5 H6].
  repeat (split; [assumption|]). assumption.
Qed.
Print Assumptions C97_dmp_refuted.
