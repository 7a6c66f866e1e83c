(** C105: setting parameters of the subsystems of a DMP (Dmp.set_params_dyn_sys). *)
From Coq Require Import String.
From Verif Require Import Base BaseLemmas DynModel DynSpec DynProofs DynProperties ParamModel ParamSpec FaModel TrajModel DmpModel DmpSpec DmpSpec2 DmpProofs DmpProofs14 DmpProofs19 DmpProofs5 DmpExamples TuneModel TuneSpec TuneProofs TuneProofs2.
Open Scope R_scope.
Open Scope string_scope.

(** The parameters mentioned get the values given; all else stays as it was. *)
Theorem C105_set : forall m params, proper_settings m params -> set_params_dyn_sys m params = (tuned m params, Ok tt).
Proof. exact set_ok. Qed.
Print Assumptions C105_set.

(** The result is the DMP which the constructor returns when it is given the systems with these parameters. *)
Theorem C105_constructor : forall ty tau y0 attr fas kw m params, new_dmp ty tau y0 attr fas kw = Ok m -> proper_settings m params ->
  fitting (length y0) (for_system params "spring_system") ->
  exists m', set_params_dyn_sys m params = (m', Ok tt) /\ new_dmp ty tau y0 attr fas (kw_with kw m') = Ok m' /\
    m_spring m' = spring_with (m_spring m) (for_system params "spring_system") /\
    m_goal m' = option_map (sub_with (for_system params "goal_system")) (m_goal m) /\
    m_damping m' = option_map (sub_with (for_system params "damping_system")) (m_damping m).
Proof.
  intros ty tau y0 attr fas kw m params E P F. exists (tuned m params). split; [now apply set_ok|]. split; [now apply (set_constructor ty tau y0 attr fas kw m)|].
  now repeat split.
Qed.
Print Assumptions C105_constructor.

(** The DMP then follows the differential equation with the new constants. *)
Theorem C105_equation : forall predict_fn m params, wf predict_fn m -> proper_settings m params ->
  (forall n, fitting (m_dim m) (for_system params n)) -> positive_mass (m_dim m) (for_system params "spring_system") ->
  exists m', set_params_dyn_sys m params = (m', Ok tt) /\ wf predict_fn m' /\
    forall x xd, length x = dim_x m -> ((exists m2, m_diffeq predict_fn m' x = Ok (m2, xd)) <-> equation predict_fn (tuned m params) x xd).
Proof.
  intros pf m params W P F M. exists (tuned m params). split; [now apply set_ok|]. pose proof (tuned_wf pf m params W F M) as W'. split; [exact W'|].
  intros x xd Hx. apply equation_iff; [exact W'|exact Hx].
Qed.
Print Assumptions C105_equation.

(** If no exception is raised, all names were names of attributes: misspelled names of parameters of the three systems and of systems are reported. *)
Theorem C105_names : forall m params m', set_params_dyn_sys m params = (m', Ok tt) ->
  (forall n, In n (map fst params) -> In n (dmp_attrs m)) /\
  (forall ps, lookup params "spring_system" = Some ps -> forall n, In n (map fst ps) -> In n spring_attrs) /\
  (forall ps, lookup params "goal_system" = Some ps -> exists g, m_goal m = Some g /\ forall n, In n (map fst ps) -> In n (sub_attrs g)) /\
  (forall ps, lookup params "damping_system" = Some ps -> exists s, m_damping m = Some s /\ forall n, In n (map fst ps) -> In n (sub_attrs s)).
Proof. exact set_known. Qed.
Print Assumptions C105_names.

(** In a DMP with a damping system, setting the damping coefficient of the spring has no effect on any later result. *)
Theorem C105_damping_ignored : forall predict_fn m v, m_damping m <> None -> par_ok v (m_dim m) -> synced m ->
  exists m', set_params_dyn_sys m [("spring_system", [("damping_coefficient", v)])] = (m', Ok tt) /\ d_damp (m_spring m') = v /\
    forall cs, replies predict_fn m' cs = replies predict_fn m cs.
Proof.
  intros pf m v H P Sy. exists (tuned m [("spring_system", [("damping_coefficient", v)])]).
  split.
  { apply set_ok. split; [repeat constructor; cbn; tauto|]. split; [intros n [<-|[]]; now left|]. split.
    - split; [repeat constructor; cbn; tauto|]. intros n [<-|[]]. now left.
    - split; intros s _; (split; [constructor|intros n []]). }
  split; [reflexivity|]. intros cs. rewrite (no_side_effects pf m cs Sy). apply replies_touched; [exact Sy|]. now apply unused_damping.
Qed.
Print Assumptions C105_damping_ignored.

(** A sigmoid system on which nothing has been called yet then behaves as one constructed with the new parameter. *)
Theorem C105_sigmoid_partial : forall s n v c, par_ok (g_rate s) (length (g_init s)) -> par_ok (g_infl s) (length (g_init s)) -> par_ok v (length (g_init s)) ->
  c_set (Csys s None) n v = Ok c ->
  ((n = "_max_rate" /\ forall calls, c_run c calls = fresh_run (Ssys (g_tau s) (g_init s) v (g_infl s)) calls) \/
   (n = "_inflection_ratio" /\ forall calls, c_run c calls = fresh_run (Ssys (g_tau s) (g_init s) (g_rate s) v) calls)).
Proof.
  intros s n v c H1 H2 H3. unfold c_set. cbn [c_sys c_ks]. destruct (String.eqb_spec n "_max_rate") as [->|N1].
  { intros E. injection E as <-. left. split; [reflexivity|]. intros calls. now apply C43_cache_never_stale. }
  destruct (String.eqb_spec n "_inflection_ratio") as [->|N2].
  { intros E. injection E as <-. right. split; [reflexivity|]. intros calls. now apply C43_cache_never_stale. }
  destruct (_ || _)%bool; discriminate.
Qed.
Print Assumptions C105_sigmoid_partial.
(** But after its differential equation has been evaluated it uses the capacities for the old parameter. *)
Theorem C105_sigmoid_refuted : exists s x v c r, c_do (Csys s None) (SDiffeq x) = (c, SVec (Ok r)) /\
  exists c' r1 r2, c_set c "_max_rate" v = Ok c' /\ c_run c' [SDiffeq x] = [SVec (Ok [r1])] /\
    fresh_run (Ssys (g_tau s) (g_init s) v (g_infl s)) [SDiffeq x] = [SVec (Ok [r2])] /\ r1 <> r2.
Proof.
  set (sg := fun r => Ssys 1 [1] (PScal r) (PScal 1)).
  set (k := fun r => 1 * (1 + 1 / exp (- r * (1 * 1)))).
  assert (Pos : forall r, 1 < k r). { intros r. unfold k. pose proof (exp_pos (- r * (1 * 1))) as H. apply Rinv_0_lt_compat in H. unfold Rdiv. lra. }
  assert (K : forall r, s_ks (sg r) = Ok [k r]) by reflexivity.
  assert (Q : forall a b, s_diffeq_k (sg a) [k b] [1] = Ok [a * 1 * (1 - 1 / k b)]).
  { intros a b. unfold s_diffeq_k. cbn [existsb]. destruct (Req_EM_T (k b) 0) as [H|_]; [specialize (Pos b); lra|]. reflexivity. }
  exists (sg (-10)), [1], (PScal (-20)), (Csys (sg (-10)) (Some [k (-10)])), [-10 * 1 * (1 - 1 / k (-10))].
  split.
  { cbn [c_do c_sys]. unfold c_get_ks. cbn [c_ks c_sys]. rewrite K. cbn [bind]. rewrite Q. reflexivity. }
  exists (Csys (sg (-20)) (Some [k (-10)])), (-20 * 1 * (1 - 1 / k (-10))), (-20 * 1 * (1 - 1 / k (-20))).
  split; [reflexivity|]. split.
  { cbn [c_run c_do c_sys]. unfold c_get_ks. cbn [c_ks c_sys bind]. rewrite Q. reflexivity. }
  split.
  { change (Ssys _ _ _ _) with (sg (-20)). cbn [fresh_run fresh_do]. unfold s_diffeq. rewrite K. cbn [bind]. rewrite Q. reflexivity. }
  assert (Inj : forall a b, / a = / b -> a = b) by (intros a b H; rewrite <- (Rinv_inv a), H; apply Rinv_inv).
  intros H. assert (E : k (-10) = k (-20)) by (apply Inj; unfold Rdiv in H; lra).
  unfold k, Rdiv in E. assert (E2 : / exp (- -10 * (1 * 1)) = / exp (- -20 * (1 * 1))) by lra. apply Inj, exp_inv in E2. lra.
Qed.
Print Assumptions C105_sigmoid_refuted.

(** Settings of the phase and gating systems, of tau, of the initial and attractor states and of the scaling are accepted and ignored. *)
Theorem C105_effect_refuted : forall m n ps, In n ["tau"; "x_init"; "y_attr"; "phase_system"; "gating_system"; "forcing_term_scaling"; "scaling_amplitudes"] ->
  set_params_dyn_sys m [(n, ps)] = (m, Ok tt).
Proof. exact set_other. Qed.
Print Assumptions C105_effect_refuted.
(** An exception does not mean that nothing was changed. *)
Theorem C105_atomic_refuted : exists m params m', set_params_dyn_sys m params = (m', Err RuntimeError) /\ m_spring m' <> m_spring m.
Proof.
  destruct ex_new as (m & E & _ & _ & _ & _ & _ & _ & _ & _ & _ & _ & _ & _ & Es & _).
  exists m, [("spring_system", [("mass", PScal 2); ("alpha", PScal 1)])]. eexists. unfold set_params_dyn_sys, set_spring. cbn [lookup].
  rewrite String.eqb_refl, Es. cbn. split; [reflexivity|]. cbn. intros H. injection H. lra.
Qed.
Print Assumptions C105_atomic_refuted.
(** Setting the damping coefficient alone loses the critical damping the constructor provides. *)
Theorem C105_critical_refuted : exists m m' d k, new_dmp Ijspeert 2 [5] [7] (Some [ex_fa]) no_kw = Ok m /\
  set_params_dyn_sys m [("spring_system", [("damping_coefficient", PScal d)])] = (m', Ok tt) /\
  d_damp (m_spring m') = PScal d /\ d_spring (m_spring m') = PScal k /\ d_mass (m_spring m') = PScal 1 /\ k <> d * d / 4.
Proof.
  destruct ex_new as (m & E & _ & _ & _ & _ & _ & _ & _ & _ & _ & _ & _ & _ & Es & _).
  exists m, (tuned m [("spring_system", [("damping_coefficient", PScal 40)])]), 40, (20 * 20 / 4). split; [exact E|]. split.
  { apply set_ok. split; [repeat constructor; cbn; tauto|]. split; [intros n [<-|[]]; now left|]. split.
    - split; [repeat constructor; cbn; tauto|]. intros n [<-|[]]. now left.
    - split; intros s _; (split; [constructor|intros n []]). }
  cbn. rewrite Es. cbn. repeat split. lra.
Qed.
Print Assumptions C105_critical_refuted.

(** two systems of a DMP with a goal and a damping system *)
Definition ex_settings : list (string * settings) :=
  [("goal_system", [("t_infl_ratio", PScal 0.5); ("alpha", PVec [12])]); ("spring_system", [("spring_constant", PScal 50); ("mass", PScal 2)]);
   ("damping_system", [("alpha", PScal 6)])].
Example C105_case : exists m, new_dmp (Sct23 true true) 2 [5] [7] (Some [ex_fa]) no_kw = Ok m /\ proper_settings m ex_settings /\
  (forall n, fitting (m_dim m) (for_system ex_settings n)) /\ positive_mass (m_dim m) (for_system ex_settings "spring_system") /\ wf ex_pf m /\ synced m /\ m_damping m <> None.
Proof.
  destruct (new_dmp_ok ex_pf (Sct23 true true) 2 [5] [7] (Some [ex_fa]) no_kw ltac:(lra) eq_refl) as (m & E & S & Sy & Pl & Ed & Et & _ & _ & Ef & Er & Es & _).
  { repeat split. } { intros [|i] Hi; cbn in *; [lra|lia]. } { split; [right; cbn; lia|]. intros; unfold ex_pf; eauto. }
  exists m. split; [exact E|]. pose proof E as E'. cbn in E'. apply TrajProofs.ok_inj in E'.
  assert (D1 : m_dim m = 1%nat) by (rewrite <- E'; reflexivity).
  split.
  { rewrite <- E'. unfold proper_settings. cbn [m_goal m_damping]. split; [repeat constructor; cbn; intuition discriminate|].
    split; [intros n [<-|[<-|[<-|[]]]]; [right; left|left|right; right]; split; (reflexivity || discriminate)|].
    split; [split; [repeat constructor; cbn; intuition discriminate|intros n [<-|[<-|[]]]; cbn; tauto]|].
    split; intros g H; injection H as <-; (split; [repeat constructor; cbn; intuition discriminate|]); [intros n [<-|[<-|[]]]; cbn; tauto|intros n [<-|[]]; cbn; tauto]. }
  split.
  { intros n. rewrite D1. unfold for_system, ex_settings. cbn [lookup].
    repeat (destruct (n =? _); cbn [opt]; [repeat constructor|]). constructor. }
  split. { rewrite D1. intros v i. cbn. intros H _. injection H as <-. cbn. lra. }
  split.
  { apply DmpProofs5.sound_wf; [exact S|]. split; [rewrite Er, Es; intros [H|H]; discriminate|rewrite Es; discriminate]. }
  split; [exact Sy|]. rewrite <- E'. discriminate.
Qed.
