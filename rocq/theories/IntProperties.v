(** Properties of numerical integration with small time steps (C46, C95, C96).

    [sampling], [lipschitz], [integrable], [within]: see IntSpec. [wf], [synced], [plain_goal], [sound],
    [allowed], [forward], [ready], [pred_val], [demo], [full_kw], [distinct_for]: DmpSpec. [trainer]: CppSpec. *)
From Coq Require Import String.
From Verif Require Import Base BaseLemmas DynModel DynSpec DynProofs DynProofs7 ParamModel FaModel TrajModel DmpModel DmpSpec DmpSpec2 DmpProofs3 DmpProofs5 DmpProofs6 DmpProofs9 DmpProofs11 DmpProofs14 SchedModel DmpExamples DmpProperties CppModel CppSpec CppExamples IntSpec IntModel IntProofs2 IntProofs6 IntProofs8 IntProofs9 IntProofs10.
Open Scope string_scope.
Open Scope R_scope.

(** ** C46 for a Dmp, whose differential equation assigns to the subsystems on every call: the rows are the steps of
    C45 with the rate of change of the DMP as it was before, and the DMP is afterwards one that answers all
    calls as before. [rate_of pf m x]: what differential_equation(x) returns. *)
Theorem C46_dmp : forall (pf : predictor) method m ts m' xs xds, m_integrate pf method m ts = Ok (m', (xs, xds)) ->
  length xs = length ts /\ length xds = length ts /\
  (exists m1, m_start pf m None = Ok (m1, nth 0 xs [], nth 0 xds [])) /\
  (forall i, (S i < length ts)%nat ->
    int_step (rate_of pf m) (dim_x m) method (nth (S i) ts 0 - nth i ts 0) (nth i xs []) = Ok (nth (S i) xs [], nth (S i) xds [])) /\
  (synced m -> forall cs, replies pf m' cs = fresh_replies pf m cs).
Proof. exact integrate_dmp. Qed.
Print Assumptions C46_dmp.
(** and it returns for all DMPs of the constructor, after every history *)
Theorem C46_dmp_returns : forall (pf : predictor) (tf : DmpProperties.trainer) ty tau y0 attr fas kw m cs m', predicts pf tf ->
  0 < tau -> full_kw (length y0) kw -> new_dmp ty tau y0 attr fas kw = Ok m -> sound pf m ->
  allowed pf tf m cs -> Forall forward cs -> apply_all pf tf m cs = Ok m' -> ready m' ->
  forall method ts, ts <> [] -> exists m2 xs xds, m_integrate pf method m' ts = Ok (m2, (xs, xds)).
Proof. exact integrate_history. Qed.
Print Assumptions C46_dmp_returns.

(** ** C95. Whichever of the two methods is used, the states found by integrating a DMP step by step differ from
    those of its analytical solution by at most a constant times the largest time step: for all times from 0 to T,
    equally spaced or not, and all numbers of steps. *)
Theorem C95_converges : forall (pf : predictor) m T, wf pf m -> synced m -> plain_goal m ->
  integrable (m_phase m) -> integrable (m_gating m) ->
  match m_goal m with Some g => integrable g | None => True end ->
  match m_damping m with Some s => integrable s | None => True end ->
  (forall i, (i < m_dim m)%nat -> lipschitz (fun ph => pred_val pf m ph i)) ->
  exists C h0, 0 <= C /\ 0 < h0 /\ forall method h ts, sampling T h ts -> h <= h0 ->
    exists m' xs xds r, m_integrate pf method m ts = Ok (m', (xs, xds)) /\ ana pf m ts false = Ok r /\
      within (C * h) (dim_x m) xs (a_xs r).
Proof. intros pf m T W Sy Pg I1 I2 I3 I4 Pl. now apply dmp_error. Qed.
Print Assumptions C95_converges.
(** in particular for DMPs of every type of the constructor, after every history of training, new starts, goals,
    durations and parameters, and executions *)
Theorem C95_types : forall (pf : predictor) (tf : DmpProperties.trainer) ty tau y0 attr fas kw m cs m' T, predicts pf tf ->
  0 < tau -> full_kw (length y0) kw -> new_dmp ty tau y0 attr fas kw = Ok m -> sound pf m ->
  allowed pf tf m cs -> Forall forward cs -> apply_all pf tf m cs = Ok m' -> ready m' ->
  (forall i, (i < m_dim m')%nat -> lipschitz (fun ph => pred_val pf m' ph i)) ->
  exists C h0, 0 <= C /\ 0 < h0 /\ forall method h ts, sampling T h ts -> h <= h0 ->
    exists m2 xs xds r, m_integrate pf method m' ts = Ok (m2, (xs, xds)) /\ ana pf m' ts false = Ok r /\
      within (C * h) (dim_x m') xs (a_xs r).
Proof. intros. eapply history_error; eassumption. Qed.
Print Assumptions C95_types.
(** and for DMPs of every type which have been trained on a demonstration, with radial basis function networks or
    locally weighted regression in each dimension *)
Theorem C95_trained : forall kinds ns h lam ty t fas kw m T,
  (forall i, (0 < ns i)%nat) -> (forall i, 0 < h i < 1) -> (forall i, 0 <= lam i) ->
  full_kw (tj_dim t) kw -> demo (tj_dim t) t -> 0 < last (tj_ts t) 0 -> hd 0 (tj_ts t) < last (tj_ts t) 0 ->
  distinct_for ty (nth 0 (mrows (tj_ys t)) []) (last (mrows (tj_ys t)) []) ->
  (tj_dim t <= length fas)%nat -> Forall (fun f => is_trained f = false) fas ->
  from_traj (py_predict exp kinds) (CppSpec.trainer kinds ns h lam) ty t (Some fas) kw = Ok m ->
  (forall i, (i < tj_dim t)%nat -> lipschitz (fun ph => pred_val (py_predict exp kinds) m ph i)) /\
  exists C h0, 0 <= C /\ 0 < h0 /\ forall method h ts, sampling T h ts -> h <= h0 ->
    exists m' xs xds r, m_integrate (py_predict exp kinds) method m ts = Ok (m', (xs, xds)) /\
      ana (py_predict exp kinds) m ts false = Ok r /\ within (C * h) (dim_x m) xs (a_xs r).
Proof.
  intros kinds ns h lam ty t fas kw m T Hn Hh Hl K D L1 L2 Di Lf Hu E.
  destruct (trained_error kinds ns h lam Hn Hh Hl ty t fas kw m T K D L1 L2 Di Lf Hu E) as (_ & A & _ & B). now split.
Qed.
Print Assumptions C95_trained.

(** ** C96. The same for the systems by themselves: exponential, sigmoid, Richards with whole exponents, and time. *)
Theorem C96_systems : forall s T, sub_ok s -> integrable s ->
  exists C h0, 0 <= C /\ 0 < h0 /\ forall method h ts, sampling T h ts -> h <= h0 ->
    exists xs xds ys yds, integrate (sub_diffeq s) (sub_dim s) method (sub_init s) ts = Ok (xs, xds) /\
      sub_ana s ts = Ok (ys, yds) /\ within (C * h) (sub_dim s) xs ys.
Proof. intros s T Ho Hi. now apply sub_error. Qed.
Print Assumptions C96_systems.
(** and for critically damped spring-damper systems which start at rest or have tau = 1. For others the
    analytical solution is a different one: see C40. *)
Theorem C96_spring : forall s T, let n := d_dimy s in
  0 < d_tau s -> length (d_init s) = (2 * n)%nat -> length (d_attr s) = n ->
  par_ok (d_damp s) n -> par_ok (d_spring s) n -> par_ok (d_mass s) n ->
  (forall i, (i < n)%nat -> 0 < par_val (d_mass s) i /\ 0 < par_val (d_spring s) i /\
     par_val (d_damp s) i = 2 * sqrt (par_val (d_mass s) i * par_val (d_spring s) i)) ->
  (d_tau s = 1 \/ forall i, (i < n)%nat -> nth (n + i) (d_init s) 0 = 0) ->
  exists C h0, 0 <= C /\ 0 < h0 /\ forall method h ts, sampling T h ts -> h <= h0 ->
    exists xs xds ys yds, integrate (d_diffeq s) (2 * n) method (d_init s) ts = Ok (xs, xds) /\
      d_ana s ts = Ok (ys, yds) /\ within (C * h) (2 * n) xs ys.
Proof. exact spring_error. Qed.
Print Assumptions C96_spring.

(** ** cases *)
Example C95_case_times : sampling 2 0.5 [0; 0.5; 0.75; 1.25].
Proof.
  split; [discriminate|]. split; [lra|]. split; [reflexivity|]. split; [cbn; lra|]. intros k Hk. cbn in Hk.
  destruct k as [|[|[|k]]]; try lia; cbn; lra.
Qed.
(** arbitrarily small steps up to any time *)
Example C95_case_fine : forall T h, 0 <= T -> 0 < h -> exists ts, sampling T h ts /\ last ts 0 = T.
Proof.
  intros T h HT Hh. assert (exists n, T / h < INR n) as [n Hn].
  { exists (Z.to_nat (up (Rabs (T / h)))). destruct (archimed (Rabs (T / h))) as [Q _]. pose proof (Rle_abs (T / h)). pose proof (Rabs_pos (T / h)).
    assert (0 <= up (Rabs (T / h)))%Z by (apply le_IZR; lra). rewrite INR_IZR_INZ, Z2Nat.id by lia. lra. }
  assert (Pn : 0 < INR n).
  { assert (0 <= T / h) by (apply Rmult_le_pos; [lra|]; left; now apply Rinv_0_lt_compat). lra. }
  assert (Nn : (0 < n)%nat) by (apply INR_lt; cbn; lra).
  set (ts := map (fun k => INR k * (T / INR n)) (seq 0 (S n))).
  assert (Ln : length ts = S n) by (unfold ts; now rewrite map_length, seq_length).
  assert (Nt : forall k, (k < S n)%nat -> nth k ts 0 = INR k * (T / INR n)) by (intros k Hk; unfold ts; now rewrite nth_map_seq).
  assert (La : last ts 0 = T).
  { rewrite last_nth, Ln. replace (S n - 1)%nat with n by lia. rewrite Nt by lia. field. lra. }
  exists ts. split; [|exact La]. split; [destruct ts; [discriminate|discriminate]|]. split; [lra|]. split; [rewrite Nt by lia; cbn; lra|]. split; [lra|].
  intros k Hk. rewrite Ln in Hk. rewrite !Nt by lia. rewrite S_INR. replace ((INR k + 1) * (T / INR n) - INR k * (T / INR n)) with (T / INR n) by (field; lra).
  assert (Q : T / h * h = T) by (field; lra). assert (T / h * h < INR n * h) by now apply Rmult_lt_compat_r.
  split; [apply Rmult_le_pos; [lra|]; left; now apply Rinv_0_lt_compat|].
  apply Rmult_le_reg_r with (INR n); [lra|]. replace (T / INR n * INR n) with T by (field; lra). lra.
Qed.
Example C95_case_types : exists m m', let cs := [XY0 [4]; XTau 3; XAttr [9]; XDecouple; XCall (CAna [0; 1] false)] in
  predicts pf_one ex_tf /\ full_kw 1 no_kw /\ new_dmp (Sct23 false true) 2 [5] [7] (Some [fa_one]) no_kw = Ok m /\ sound pf_one m /\
  allowed pf_one ex_tf m cs /\ Forall forward cs /\ apply_all pf_one ex_tf m cs = Ok m' /\ ready m' /\ m_damping m' <> None /\
  lipschitz (fun ph => pred_val pf_one m' ph 0).
Proof.
  destruct C82_types_case as (m & m' & H). exists m, m'. cbv zeta in *. destruct H as (H1 & H2 & H3 & H4 & H5 & H6 & H7 & H8 & H9 & _ & _ & H10).
  do 9 (split; [assumption|]). apply (lip_ext (fun _ => 1)); [intros; now rewrite H10|apply lip_const].
Qed.
(** the DMP of C95_case_types *)
Example C46_dmp_case : exists m m' xs xds, m_integrate pf_one RungeKutta m [0; 0.1; 0.25] = Ok (m', (xs, xds)) /\ m_damping m <> None.
Proof.
  destruct C95_case_types as (m0 & m & H). cbv zeta in H. destruct H as (H1 & H2 & H3 & H4 & H5 & H6 & H7 & H8 & H9 & _).
  destruct (integrate_history pf_one ex_tf _ 2 [5] [7] _ no_kw m0 _ m H1 ltac:(lra) H2 H3 H4 H5 H6 H7 H8 RungeKutta [0; 0.1; 0.25]) as (m' & xs & xds & E); [discriminate|].
  now exists m, m', xs, xds.
Qed.
(** a demonstration *)
Example C95_case_trained : exists m, from_traj (py_predict exp ex_kinds) (CppSpec.trainer ex_kinds (fun _ => 3%nat) (fun _ => 0.7) (fun _ => 1)) Countdown
    ex_demo (Some [new_fa []]) no_kw = Ok m /\ full_kw (tj_dim ex_demo) no_kw /\ demo (tj_dim ex_demo) ex_demo /\
    0 < last (tj_ts ex_demo) 0 /\ hd 0 (tj_ts ex_demo) < last (tj_ts ex_demo) 0 /\
    distinct_for Countdown (nth 0 (mrows (tj_ys ex_demo)) []) (last (mrows (tj_ys ex_demo)) []).
Proof.
  destruct ex_trained_good as (m & E & _). exists m. split; [exact E|]. split; [now repeat split|]. split; [|split; [cbn; lra|split; [cbn; lra|exact I]]].
  repeat split; repeat constructor.
Qed.
Example C96_case : sub_ok (SubR (Rsys 2 [1; 5] (PVec [0; 3]) (PScal 0.5) (PScal 10) (PScal 2) None)) /\
  integrable (SubR (Rsys 2 [1; 5] (PVec [0; 3]) (PScal 0.5) (PScal 10) (PScal 2) None)) /\
  sub_ok (SubT (new_time 2 true)) /\ integrable (SubT (new_time 2 true)).
Proof.
  split.
  { split; [cbn; lra|]. cbn. split; [reflexivity|]. split; [now repeat split|]. intros [|[|i]] Hi; cbn; try lra; lia. }
  split; [intros i Hi; exists 2%nat; split; [lia|cbn; lra]|]. split; [|cbn; lra]. split; [cbn; lra|reflexivity].
Qed.
Example C96_case_spring : let s := new_spring 2 [5; 1] [7; 4] (PScal 20) None (PScal 1) in
  0 < d_tau s /\ length (d_init s) = 4%nat /\ (forall i, (i < 2)%nat -> 0 < par_val (d_mass s) i /\ 0 < par_val (d_spring s) i /\
     par_val (d_damp s) i = 2 * sqrt (par_val (d_mass s) i * par_val (d_spring s) i)) /\ forall i, (i < 2)%nat -> nth (2 + i) (d_init s) 0 = 0.
Proof.
  cbv zeta. split; [cbn; lra|]. split; [reflexivity|]. split.
  - intros i Hi. cbn. split; [lra|]. split; [lra|]. replace (1 * (20 * 20 / 4)) with (10 * 10) by lra. rewrite sqrt_square by lra. lra.
  - intros [|[|i]] Hi; [reflexivity|reflexivity|lia].
Qed.
