(** The differential equation of DMPs (C91).

    [equation], [unrestricted]: see DmpSpec2. [wf]: DmpSpec. *)
From Coq Require Import String.
From Verif Require Import Base BaseLemmas DynModel DynSpec ParamModel DmpModel DmpSpec DmpSpec2 DmpProofs14 DmpProofs19 DmpExamples.
Open Scope R_scope.

(** ** C91. [predict_fn] is the prediction of the function approximators, any function. *)
Theorem C91_equation : forall predict_fn m x xd, wf predict_fn m -> length x = dim_x m ->
  ((exists m', m_diffeq predict_fn m x = Ok (m', xd)) <-> equation predict_fn m x xd).
Proof. intros pf m x xd W. now apply equation_iff. Qed.
Print Assumptions C91_equation.
(** it is defined in all states *)
Theorem C91_defined : forall predict_fn m x, wf predict_fn m -> length x = dim_x m ->
  unrestricted (m_phase m) -> unrestricted (m_gating m) ->
  (forall g, m_goal m = Some g -> unrestricted g) -> (forall s, m_damping m = Some s -> unrestricted s) ->
  exists m' xd, m_diffeq predict_fn m x = Ok (m', xd).
Proof. intros. now apply diffeq_total. Qed.
Print Assumptions C91_defined.
(** and it does not depend on earlier calls *)
Theorem C91_pure : forall predict_fn m x m' xd x', m_diffeq predict_fn m x = Ok (m', xd) ->
  m_diffeq predict_fn m' x' = m_diffeq predict_fn m x'.
Proof. intros pf m x m' xd x' E. apply touch_diffeq. exact (diffeq_touch pf m m' x xd E). Qed.
Print Assumptions C91_pure.
Example C91_case : exists m, new_dmp Ijspeert 2 [5] [7] (Some [ex_fa]) no_kw = Ok m /\ wf ex_pf m /\ m_dim m = 1%nat /\
  unrestricted (m_phase m) /\ unrestricted (m_gating m) /\ m_goal m = None /\ length [5; 1; 7; 1; 0.5; 0] = dim_x m.
Proof.
  destruct ex_new as (m & E & S & Sy & Pl & Ed & Ef & Er & Es & _ & Eg & Ed2 & Ega & Eph & _). exists m. split; [exact E|].
  destruct ex_wf as (m1 & E1 & W & _). assert (m1 = m) by congruence. subst m1. split; [exact W|]. split; [exact Ed|].
  rewrite Ega, Eph. do 2 (split; [exact I|]). split; [exact Eg|]. unfold dim_x. now rewrite Ed.
Qed.
