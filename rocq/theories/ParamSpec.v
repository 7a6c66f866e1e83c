(** Specification vocabulary for parameter vectors. *)
From Coq Require Import String.
From Verif Require Import Base ParamModel.
Open Scope string_scope.

(** a numpy array with at least one dimension *)
Definition proper_array (a : arr) : Prop := ashape a <> [] /\ length (adata a) = prod (ashape a).
(** [name] is a parameter of the model, and an array *)
Definition array_param (f : fa) (name : string) : Prop := exists a, lookup (f_model f) name = Some (PArr a) /\ proper_array a.
(** the function approximator is trained and a list of distinct array parameters is selected *)
Definition selectable (f : fa) : Prop :=
  is_trained f = true /\ exists sel, f_sel f = Some sel /\ NoDup sel /\ Forall (array_param f) sel.

(** two function approximators that only differ in the values of some of the parameters [sel] *)
Definition same_but (sel : list string) (f f' : fa) : Prop :=
  f_dim f' = f_dim f /\ f_sel f' = f_sel f /\ map fst (f_model f') = map fst (f_model f) /\
  (forall n, ~ In n sel -> lookup (f_model f') n = lookup (f_model f) n) /\
  (forall n, match lookup (f_model f) n with
             | Some (PArr a) => exists a', lookup (f_model f') n = Some (PArr a') /\ ashape a' = ashape a
             | r => lookup (f_model f') n = r
             end).
Definition fa_selection (f : fa) : list string := match f_sel f with Some l => l | None => [] end.

(** a DMP all of whose trained function approximators have a selection; the attractor has the size
    of the DMP *)
Definition selectable_dmp (p : pdmp) : Prop :=
  Forall (fun f => is_trained f = true -> selectable f) (fas_of p) /\ length (p_attr p) = p_dim p.
Definition selectable_sdmp (s : sdmp) : Prop :=
  selectable_dmp (s_dmp s) /\ Forall (fun f => is_trained f = true -> selectable f) (s_scheds s).

(** same function approximators up to the values of their selected parameters *)
Definition same_fas (fs fs' : list fa) : Prop :=
  Forall2 (fun f f' => same_but (fa_selection f) f f' /\ (is_trained f = false -> f' = f)) fs fs'.

(** names a DMP's parameter vector is made of *)
Definition goal_selected (p : pdmp) : Prop := In "goal" (p_sel p).

(** a value respects optional per-dimension bounds *)
Definition arg_at (a : sbound_arg) (i : nat) : option R :=
  match a with
  | ANone => None | AScalar r => Some r
  | AArr l | AList l => nth_error l i
  end.
Definition in_bounds (lo hi : sbound_arg) (i : nat) (x : R) : Prop :=
  (forall l, arg_at lo i = Some l -> (l <= x)%R) /\ (forall h, arg_at hi i = Some h -> (x <= h)%R).

(** bounds with which the code works: none, a list with one entry per schedule, or for a single
    schedule a non-zero scalar or array *)
Definition usable (n : nat) (a : sbound_arg) : Prop :=
  a = ANone \/ (exists l, a = AList l /\ length l = n /\ l <> []) \/
  (n = 1%nat /\ exists r, r <> 0%R /\ (a = AScalar r \/ a = AArr [r])).
