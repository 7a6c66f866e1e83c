(** Specification vocabulary: what happens when the time steps become small. *)
From Coq Require Import String.
From Verif Require Import Base DynModel DynSpec ParamModel DmpModel DmpSpec.
Open Scope R_scope.

(** increasing times from 0 to at most T with steps of at most h *)
Definition sampling (T h : R) (ts : list R) : Prop :=
  ts <> [] /\ 0 <= h /\ nth 0 ts 0 = 0 /\ last ts 0 <= T /\
  forall k, (S k < length ts)%nat -> 0 <= nth (S k) ts 0 - nth k ts 0 <= h.
(** Lipschitz continuous on every bounded interval *)
Definition lipschitz (f : R -> R) : Prop :=
  forall B, exists L, forall x y, Rabs x <= B -> Rabs y <= B -> Rabs (f x - f y) <= L * Rabs (x - y).
(** subsystems whose differential equation is defined in all states: the exponents of a Richards system
    are whole numbers; times run forwards *)
Definition integrable (s : sub) : Prop :=
  match s with
  | SubR h => forall i, (i < length (h_init h))%nat -> exists k, (1 <= k)%nat /\ par_val (h_v h) i = INR k
  | SubT t => 0 < t_tau t
  | _ => True
  end.
(** two tables with rows for the same times and n columns differ by at most e *)
Definition within (e : R) (n : nat) (xs ys : list (list R)) : Prop :=
  length xs = length ys /\
  forall k i, (k < length xs)%nat -> (i < n)%nat -> Rabs (nth i (nth k xs []) 0 - nth i (nth k ys []) 0) <= e.
