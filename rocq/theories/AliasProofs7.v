(** What happens to programs with a DMP which are not careful. *)
From Coq Require Import String.
From Verif Require Import Base BaseLemmas DynModel ParamModel TrajModel DmpModel IntModel AliasModel AliasDyn AliasFa AliasDmp AliasSpec AliasProofs.
Open Scope R_scope.

Section S.
Variable pf : nat -> list (string * pval) -> R -> res R.
Variable tf : nat -> list R -> list R -> res (list (string * pval)).

(** the array given as attractor to the constructor *)
Theorem dmp_attractor_shares tau y0 y1 a0 a1 v :
  run_dmp pf tf (Mctor Ijspeert tau None None None None) [[y0; y1]; [a0; a1]] [EWrite 1 0 v; ECall MGetAttr []] = Ok [Ok [[v; a1]]] /\
  by_value_dmp pf tf (Mctor Ijspeert tau None None None None) [[y0; y1]; [a0; a1]] [EWrite 1 0 v; ECall MGetAttr []] = Ok [Ok [[a0; a1]]].
Proof. split; reflexivity. Qed.
(** the vector given to set_param_vector *)
Theorem dmp_goal_shares tau y0 y1 a0 a1 b0 b1 v : let es := [ENew [b0; b1]; ECall (MSelect (NList ["goal"%string])) []; ECall MSetParams [2%nat]; EWrite 2 0 v; ECall MGetParams []] in
  run_dmp pf tf (Mctor Ijspeert tau None None None None) [[y0; y1]; [a0; a1]] es = Ok [Ok []; Ok []; Ok [[v; b1]]] /\
  by_value_dmp pf tf (Mctor Ijspeert tau None None None None) [[y0; y1]; [a0; a1]] es = Ok [Ok []; Ok []; Ok [[b0; b1]]].
Proof. split; reflexivity. Qed.
(** the state y_init returned by the DMP is its initial state *)
Theorem dmp_start_shares tau y0 y1 a0 a1 v : let es := [ECall MGetY []; EWrite 2 0 v; ECall MGetY []] in
  run_dmp pf tf (Mctor Ijspeert tau None None None None) [[y0; y1]; [a0; a1]] es = Ok [Ok [[y0; y1]]; Ok [[v; y1]]] /\
  by_value_dmp pf tf (Mctor Ijspeert tau None None None None) [[y0; y1]; [a0; a1]] es = Ok [Ok [[y0; y1]]; Ok [[y0; y1]]].
Proof. split; reflexivity. Qed.
End S.
