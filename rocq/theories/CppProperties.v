(** Properties of the C++ counterpart (C75).

    [portable], [uniform], [proper], [visible], [run], [py_call], [cpp_call], [replaced], [trainer],
    [plain_kw]: see CppSpec. [wf]: DmpSpec. *)
From Coq Require Import String.
From Verif Require Import Base BaseLemmas DynModel DynSpec DynProofs ParamModel FaModel TrajModel DmpModel DmpSpec DmpSpec2 DmpProofs3 DmpProofs5 DmpExamples CppModel CppSpec CppProofs CppProofs2 CppProofs3 CppProofs4 CppProofs5 CppProofs7 CppProofs8 CppProofs9 CppProofs10 CppExamples.
Open Scope string_scope.
Open Scope R_scope.

(** ** C75. Full statement: a DMP that Python saves for C++ is read by the C++ program, which then
    computes the same rates of change, initial states, analytical solutions and steps, for all states,
    times and parameters, also after tau, the initial state or the attractor is set. False for DMPs
    without exponential goal system (IJSPEERT_2002_MOVEMENT and those of 2023), for new DMPs, for other
    springs than critically damped ones with mass 1, for DMPs with damping system, for times which are
    not in order, and for subsystems with a duration of their own. *)

(** any history of calls *)
Theorem C75_history_partial : forall ex kinds m qs, wf (py_predict ex kinds) m -> portable kinds m -> uniform m -> 0 < m_tau m ->
  Forall (proper (m_dim m)) qs ->
  exists c, transfer kinds m = Ok c /\ run (cpp_call ex) c qs = run (py_call ex kinds) m qs /\
    length (run (cpp_call ex) c qs) = length qs /\ Forall (fun r => exists v, r = Ok v) (run (cpp_call ex) c qs).
Proof.
  intros ex kinds m qs W P U Ht Hq. exists (img kinds m). split; [now apply transfer_ok|].
  destruct (run_same ex kinds (m_dim m) qs m) as (A & B & C); [exact (conj W (conj P (conj U (conj Ht eq_refl))))|trivial|]. rewrite A. now repeat split.
Qed.
Print Assumptions C75_history_partial.
(** rates of change in all states, without condition on the durations *)
Theorem C75_rate_partial : forall ex kinds m x, wf (py_predict ex kinds) m -> portable kinds m -> length x = dim_x m ->
  exists c m' c' xd, transfer kinds m = Ok c /\ m_diffeq (py_predict ex kinds) m x = Ok (m', xd) /\
    c_diffeq ex c (visible (m_dim m) x) = Ok (c', visible (m_dim m) xd) /\ transfer kinds m' = Ok c'.
Proof.
  intros ex kinds m x W P Hx. destruct (diffeq_same ex kinds m W P x Hx) as (g & xd & A & Lg & _ & _ & B).
  exists (img kinds m), (m_next m g), (img kinds (m_next m g)), xd. split; [now apply transfer_ok|]. split; [exact A|]. split; [exact B|].
  apply transfer_ok. now apply next_portable.
Qed.
Print Assumptions C75_rate_partial.
(** the analytical solution, for matrices of the caller of any shape but that of a transposed result *)
Theorem C75_analytical_partial : forall ex kinds m ts shape, wf (py_predict ex kinds) m -> portable kinds m -> uniform m -> 0 < m_tau m ->
  ts <> [] -> in_order ts -> shape <> (3 * m_dim m + 2, length ts)%nat ->
  exists c r, transfer kinds m = Ok c /\ ana (py_predict ex kinds) m ts false = Ok r /\
    c_ana ex c shape ts = Ok (map (visible (m_dim m)) (a_xs r), map (visible (m_dim m)) (a_xds r), a_forcing r, a_fa r).
Proof.
  intros ex kinds m ts shape W P U Ht Hne Ho Hs. destruct (wf_parts _ m W) as (G & Gd & Ph & Pd & A & Ad & D & Dd & C & Cd & Q).
  destruct (ana_same ex kinds m W P G Gd Ph Pd A Ad D Dd C Cd Q shape ts Ht U Hne Ho Hs) as (r & E1 & E2).
  exists (img kinds m), r. split; [now apply transfer_ok|]. now split.
Qed.
Print Assumptions C75_analytical_partial.
(** all DMPs of the two types with exponential goal system which are trained on a demonstration *)
Theorem C75_trained : forall kinds ns h lam ty t fas kw,
  (forall i, kinds i <> KOther) -> (forall i, (0 < ns i)%nat) -> (forall i, 0 < h i < 1) -> (forall i, 0 < lam i) ->
  ty = Kulvicius \/ ty = Countdown -> plain_kw kw -> opt (k_scaling kw) NoScaling = NoScaling ->
  demo (tj_dim t) t -> 0 < last (tj_ts t) 0 -> hd 0 (tj_ts t) < last (tj_ts t) 0 ->
  (tj_dim t <= length fas)%nat -> Forall (fun f => is_trained f = false) fas ->
  exists m c, from_traj (py_predict exp kinds) (trainer kinds ns h lam) ty t (Some fas) kw = Ok m /\ transfer kinds m = Ok c /\
    forall qs, Forall (proper (tj_dim t)) qs ->
      run (cpp_call exp) c qs = run (py_call exp kinds) m qs /\ length (run (cpp_call exp) c qs) = length qs /\
      Forall (fun r => exists v, r = Ok v) (run (cpp_call exp) c qs).
Proof.
  intros kinds ns h lam ty t fas kw Hk Hn Hh Hl Hty K Ks D L1 L2 Lf Hu.
  destruct (from_traj_ok kinds ns h lam Hk Hn Hh Hl ty t fas kw Hty K Ks D L1 L2 Lf Hu) as [m E].
  assert (G : good exp kinds (tj_dim t) m) by (eapply trained_good; eauto; intros; now apply Rlt_le).
  exists m, (img kinds m). split; [exact E|]. split; [apply transfer_ok, G|]. intros qs Hq.
  destruct (run_same exp kinds (tj_dim t) qs m G Hq) as (A & B & C). rewrite A. now repeat split.
Qed.
Print Assumptions C75_trained.
(** also with the two other scalings, if training succeeds *)
Theorem C75_trained_scaled : forall kinds ns h lam ty t fas kw m,
  (forall i, (0 < ns i)%nat) -> (forall i, 0 < h i < 1) -> (forall i, 0 <= lam i) ->
  ty = Kulvicius \/ ty = Countdown -> plain_kw kw ->
  demo (tj_dim t) t -> 0 < last (tj_ts t) 0 -> hd 0 (tj_ts t) < last (tj_ts t) 0 ->
  (tj_dim t <= length fas)%nat -> Forall (fun f => is_trained f = false) fas ->
  from_traj (py_predict exp kinds) (trainer kinds ns h lam) ty t (Some fas) kw = Ok m ->
  exists c, transfer kinds m = Ok c /\
    forall qs, Forall (proper (tj_dim t)) qs -> run (cpp_call exp) c qs = run (py_call exp kinds) m qs.
Proof.
  intros kinds ns h lam ty t fas kw m Hn Hh Hl Hty K D L1 L2 Lf Hu E.
  assert (G : good exp kinds (tj_dim t) m) by (eapply trained_good; eauto).
  exists (img kinds m). split; [apply transfer_ok, G|]. intros qs Hq. apply (run_same exp kinds (tj_dim t) qs m G Hq).
Qed.
Print Assumptions C75_trained_scaled.
(** DMPs constructed in C++ by the type IJSPEERT_2002_MOVEMENT have the differential equation of those
    constructed in Python *)
Theorem C75_constructed : forall ex kinds tau y0 attr fas fs kw m x,
  plain_kw kw -> opt (k_alpha kw) (PScal 20) = PScal 20 -> new_dmp Ijspeert tau y0 attr (Some fas) kw = Ok m -> wf (py_predict ex kinds) m ->
  (forall i f, nth_error fas i = Some f -> fa_portable (kinds i) f) -> length fas = length y0 -> length fs = length y0 ->
  (forall i f, nth_error fas i = Some f -> load_fa (fa_json (kinds i) f) = Ok (nth i fs None)) ->
  length x = (4 * length y0 + 2)%nat ->
  exists c m' xd, new_native Ijspeert tau y0 attr fs (scaling_name (opt (k_scaling kw) NoScaling)) (opt (k_amps kw) []) = Ok c /\
    m_diffeq (py_predict ex kinds) m x = Ok (m', xd) /\ c_rate ex c (visible (length y0) x) = Ok (visible (length y0) xd).
Proof. exact native_rate. Qed.
Print Assumptions C75_constructed.

(** What must hold for a DMP to be read. *)
Theorem C75_readable : forall kinds m c, transfer kinds m = Ok c ->
  (exists d, d_damp (m_spring m) = PScal d) /\ (exists y0, m_y0 m = Some y0) /\
  exists e a, m_goal m = Some (SubE e) /\ e_alpha e = PScal a.
Proof. exact transfer_needs. Qed.
Print Assumptions C75_readable.
(** new DMPs of any type are not read *)
Theorem C75_new_refuted : forall kinds ty tau y0 attr fas kw m, new_dmp ty tau y0 attr fas kw = Ok m ->
  exists e, transfer kinds m = Err e.
Proof.
  intros kinds ty tau y0 attr fas kw m E. apply new_unreadable in E. destruct (transfer kinds m) as [c|e] eqn:T; [|now exists e].
  destruct (transfer_needs _ _ _ T) as (_ & (y & Ey) & _). congruence.
Qed.
Print Assumptions C75_new_refuted.
(** DMPs without goal system are never read, whatever has been done with them *)
Theorem C75_no_goal_refuted : forall kinds m, m_goal m = None \/ (exists h, m_goal m = Some (SubR h)) -> exists e, transfer kinds m = Err e.
Proof.
  intros kinds m H. destruct (transfer kinds m) as [c|e] eqn:T; [|now exists e].
  destruct (transfer_needs _ _ _ T) as (_ & _ & e & a & Eg & _). destruct H as [H|[h H]]; congruence.
Qed.
Print Assumptions C75_no_goal_refuted.
(** The spring constant, the mass and the damping system are not read: whichever other constant or mass
    a DMP gets, and whichever damping system, C++ computes other rates than Python in some state. *)
Theorem C75_spring_refuted : forall ex kinds m, wf (py_predict ex kinds) m -> portable kinds m -> (0 < m_dim m)%nat ->
  forall k, d_spring (m_spring m) <> PScal k ->
  let m1 := replaced m (PScal k) (d_mass (m_spring m)) None in
  exists cpp x m2 xd c2 xc, length x = dim_x m /\ transfer kinds m1 = Ok cpp /\ m_diffeq (py_predict ex kinds) m1 x = Ok (m2, xd) /\
    c_diffeq ex cpp (visible (m_dim m) x) = Ok (c2, xc) /\ visible (m_dim m) xd <> xc.
Proof. exact spring_lost. Qed.
Print Assumptions C75_spring_refuted.
Theorem C75_mass_refuted : forall ex kinds m, wf (py_predict ex kinds) m -> portable kinds m -> (0 < m_dim m)%nat ->
  forall mass, mass <> 0 -> mass <> 1 -> d_damp (m_spring m) <> PScal 0 ->
  let m1 := replaced m (d_spring (m_spring m)) (PScal mass) None in
  exists cpp x m2 xd c2 xc, length x = dim_x m /\ transfer kinds m1 = Ok cpp /\ m_diffeq (py_predict ex kinds) m1 x = Ok (m2, xd) /\
    c_diffeq ex cpp (visible (m_dim m) x) = Ok (c2, xc) /\ visible (m_dim m) xd <> xc.
Proof. exact mass_lost. Qed.
Print Assumptions C75_mass_refuted.
Theorem C75_damping_refuted : forall ex kinds m, wf (py_predict ex kinds) m -> portable kinds m -> (0 < m_dim m)%nat ->
  forall s, sub_ok s -> sub_dim s = m_dim m -> unrestricted s ->
  let m1 := replaced m (d_spring (m_spring m)) (d_mass (m_spring m)) (Some s) in
  exists cpp x m2 xd c2 xc, length x = dim_x m /\ transfer kinds m1 = Ok cpp /\ m_diffeq (py_predict ex kinds) m1 x = Ok (m2, xd) /\
    c_diffeq ex cpp (visible (m_dim m) x) = Ok (c2, xc) /\ visible (m_dim m) xd <> xc.
Proof. exact damping_lost. Qed.
Print Assumptions C75_damping_refuted.
(** set_tau with a phase system that has a duration of its own: Python scales it, C++ sets it *)
Theorem C75_tau_refuted : forall ex kinds m c, wf (py_predict ex kinds) m -> portable kinds m -> 0 < m_tau m -> transfer kinds m = Ok c ->
  forall s t, m_phase m = SubT s -> t_tau s <> m_tau m -> 0 < t ->
  exists m' c' m2 x xd, set_tau m t = Ok m' /\ c_set_tau c t = Ok c' /\ length x = dim_x m /\
    m_diffeq (py_predict ex kinds) m' x = Ok (m2, xd) /\ c_rate ex c' (visible (m_dim m) x) <> Ok (visible (m_dim m) xd).
Proof.
  intros ex kinds m c W P Ht T s t. rewrite (transfer_ok kinds m P) in T. assert (Z : c = img kinds m) by congruence. subst c. now apply tau_differs.
Qed.
Print Assumptions C75_tau_refuted.
(** times which are not in order: the phases differ *)
Theorem C75_order_refuted : exists s c ts xs xds xs' xds', 0 < t_tau s /\ load_sub (sub_json (SubT s)) = Ok (Some c) /\
  sub_ana (SubT s) ts = Ok (xs, xds) /\ csub_ana c ts = Ok (xs', xds') /\ xs <> xs'.
Proof.
  destruct unsorted_differ as (s & ts & xs & xds & xs' & xds' & P & T & A & B & C).
  exists s, (csub_of (SubT s)), ts, xs, xds, xs', xds'. split; [exact T|]. split; [now apply load_sub_ok|]. now repeat split.
Qed.
Print Assumptions C75_order_refuted.
(** the results are transposed if the matrix of the caller has as many rows as a state has entries and
    as many columns as there are times; so is a square result that is passed again *)
Theorem C75_shape_refuted : forall ex c ts xs xds fts fas, c_ana ex c (0, 0)%nat ts = Ok (xs, xds, fts, fas) ->
  c_ana ex c (3 * cdim c + 2, length ts)%nat ts = Ok (ctranspose (3 * cdim c + 2) xs, ctranspose (3 * cdim c + 2) xds, fts, fas).
Proof. exact transposed. Qed.
Print Assumptions C75_shape_refuted.
(** a sigmoid system whose initial output is set: C++ keeps the old capacities *)
Theorem C75_sigmoid_refuted : exists s c y x s' c' xd, load_sub (sub_json (SubS s)) = Ok (Some (CS c)) /\
  sub_set_y_init (SubS s) y = Ok s' /\ sig_set_y_init c y = Ok c' /\ sub_diffeq s' x = Ok xd /\ csub_diffeq (CS c') x <> Ok xd.
Proof.
  destruct stale_capacities as (s & c & y & x & s' & c' & xd & P & E & A & B & C & D). exists s, c, y, x, s', c', xd.
  split; [rewrite <- E; now apply load_sub_ok|]. now repeat split.
Qed.
Print Assumptions C75_sigmoid_refuted.
(** the gating system of DMPs constructed in C++ by the two other types is another one: at the end of a
    movement of one second it is not 0.1 *)
Theorem C75_gating_refuted : exists s c xs xds xs' xds', for_gating 1 0.1 1 = Ok s /\ s_ana s [1] = Ok (xs, xds) /\
  (forall y0 attr, snd (native_subs Kulvicius 1 y0 attr) = Some c /\ snd (native_subs Countdown 1 y0 attr) = Some c) /\
  csub_ana c [1] = Ok (xs', xds') /\ nth 0 (nth 0 xs []) 0 = 0.1 /\ 0.25 < nth 0 (nth 0 xs' []) 0.
Proof. exact native_gating. Qed.
Print Assumptions C75_gating_refuted.

(** a DMP trained on four points, and calls of all kinds *)
Example C75_case : exists m, from_traj (py_predict exp ex_kinds) (trainer ex_kinds (fun _ => 3%nat) (fun _ => 0.7) (fun _ => 1)) Countdown
    ex_demo (Some [new_fa []]) no_kw = Ok m /\ wf (py_predict exp ex_kinds) m /\ portable ex_kinds m /\ uniform m /\ 0 < m_tau m /\ m_dim m = 1%nat /\
  Forall (proper 1) [QStart; QEuler 0.1 [0; 0; 0; 1; 1; 0]; QTau 2; QAna [0; 1; 2; 5]; QY0 [3]; QAttr [4]; QRk 0.1 [1; 2; 3; 0.5; 0.5; 0]; QRate [1; 2; 3; 0; 0; 0]].
Proof.
  destruct ex_trained_good as (m & E & W & P & U & T & D). exists m. do 6 (split; [trivial|]).
  assert (O : in_order [0; 1; 2; 5]).
  2:{ repeat apply Forall_cons; try apply Forall_nil; try reflexivity; cbn [proper]; try lra; try (split; [lra|reflexivity]).
      split; [discriminate|exact O]. }
  intros i j [H1 H2]. cbn in H2. destruct j as [|[|[|[|j]]]]; try lia; destruct i as [|[|[|[|i]]]]; try lia; cbn; lra.
Qed.
(** a function approximator that both programs have *)
Example C75_case_fa : fa_portable KRbfn ex_rbf /\ exists f, load_fa (fa_json KRbfn ex_rbf) = Ok (Some f).
Proof.
  split; [exact ex_rbf_portable|]. destruct (fa_same exp (fun _ => KRbfn) 0 ex_rbf ex_rbf_portable) as (f & E & _). now exists f.
Qed.
