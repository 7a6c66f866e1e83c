(** Properties C47-C54 and C77-C83: dynamical movement primitives.

    [pf] stands for the predictions of the function approximators, [tf] for their training; see
    DmpModel. The vocabulary is in DmpSpec. *)
From Coq Require Import String.
From Verif Require Import Base DynModel DynSpec ParamModel ParamSpec TrajModel DmpModel DmpSpec DmpProofs5 DmpProofs7 DmpProofs8 DmpProofs9 DmpProofs10 DmpProofs11 DmpProofs12 DmpProofs13 DmpProofs14 DmpProofs15 DmpProofs16 DmpProofs17 DmpProofs18 DmpProofs20 DmpExamples.
Open Scope R_scope.

Definition predictor := nat -> list (string * pval) -> R -> res R.
Definition trainer := nat -> list R -> list R -> res (list (string * pval)).

(** ** C47, for DMPs. What integration and rollouts start with is the state that was set, at rest;
    but the getter does not return it. *)
Theorem C47_dmp_start : forall (pf : predictor) m y, sound pf m -> synced m -> plain_goal m -> dmp_regular m 0 ->
  (m_scaling m = Amplitude -> exists a, m_amps m = Some a /\ length a = m_dim m) ->
  length y = m_dim m -> goal_accepts m y ->
  exists m', set_y0 m y = Ok m' /\ get_y0 m' = get_y0 m /\
    (exists m'' x xd, m_start pf m' None = Ok (m'', x, xd) /\
       forall i, (i < m_dim m)%nat -> nth i x 0 = nth i y 0 /\ nth (m_dim m + i) x 0 = 0) /\
    (forall ts sup, ts <> [] -> exists r, ana pf m' ts sup = Ok r /\
       forall i, (i < m_dim m)%nat -> yv (a_xs r) 0 i = nth i y 0 /\ zv (m_dim m) (a_xs r) 0 i = 0 /\ yv (a_xds r) 0 i = 0).
Proof. exact set_y0_start. Qed.
Print Assumptions C47_dmp_start.
Theorem C47_dmp_wrong_size : forall m y, length y <> m_dim m -> set_y0 m y = Err ValueError.
Proof. exact set_y0_wrong. Qed.
Print Assumptions C47_dmp_wrong_size.
Theorem C47_dmp_getter_refuted : exists m m' y, (exists fas, new_dmp Ijspeert 2 [5] [7] fas no_kw = Ok m) /\ set_y0 m y = Ok m' /\ get_y0 m' <> y.
Proof.
  destruct ex_new as (m & E & S & _ & _ & Ed & _ & _ & _ & Hg & _). destruct (set_y0_sound ex_pf m [0] S) as (m' & E' & _); [now rewrite Ed|exact Hg|].
  exists m, m', [0]. split; [now exists (Some [ex_fa])|]. split; [exact E'|].
  assert (Eg : get_y0 m' = get_y0 m).
  { unfold set_y0 in E'. destruct (Nat.eqb _ _); [|discriminate]. destruct (d_set_y_init _ _); [|discriminate]. cbn [bind] in E'.
    destruct (match m_goal m with Some g => _ | None => _ end); [|discriminate]. injection E' as <-. reflexivity. }
  rewrite Eg. cbn in E. injection E as <-. cbn. intros H. injection H. lra.
Qed.
Print Assumptions C47_dmp_getter_refuted.
Example C47_dmp_case : exists m, sound ex_pf m /\ synced m /\ plain_goal m /\ dmp_regular m 0 /\ goal_accepts m [0] /\ length [0] = m_dim m.
Proof.
  destruct ex_new as (m & E & S & Sy & Pl & Ed & _ & _ & _ & Hg & Ego & Eda & Ega & Eph & _). exists m.
  do 3 (split; [trivial|]). split; [|split; [trivial|now rewrite Ed]]. unfold dmp_regular. rewrite Ego, Eda, Ega, Eph. repeat split.
Qed.

(** ** C48. *)
Theorem C48_partition : forall m, d_goal m = m_dim m ->
  (indices (ix_spring m) ++ indices (ix_goal m) ++ indices (ix_phase m) ++ indices (ix_gating m) ++ indices (ix_damping m))%list =
    seq 0 (dim_x m) /\
  indices (ix_spring m) = (indices (ix_y m) ++ indices (ix_z m))%list.
Proof. exact indices_cover. Qed.
Print Assumptions C48_partition.
(** with a goal system of its own dimension, some component of the state belongs to no subsystem *)
Theorem C48_small_goal_refuted : forall m, (d_goal m < m_dim m)%nat -> exists j, (j < dim_x m)%nat /\
  ~ In j (indices (ix_spring m) ++ indices (ix_goal m) ++ indices (ix_phase m) ++ indices (ix_gating m) ++ indices (ix_damping m))%list.
Proof. exact indices_overlap. Qed.
Print Assumptions C48_small_goal_refuted.
Example C48_case : exists m, new_dmp (Sct23 true true) 1 [1; 2; 3] [4; 5; 6] None no_kw = Ok m /\ d_goal m = m_dim m /\ dim_x m = 14%nat.
Proof. eexists. repeat split. Qed.
Example C48_small_case : exists m, new_dmp Ijspeert 1 [1; 2; 3] [4; 5; 6] None
    (Kw None None None None (Some (Some (SubE (Esys 1 [1; 2] [4; 5] (PScal 1))))) None None None) = Ok m /\ (d_goal m < m_dim m)%nat.
Proof. eexists. split; [reflexivity|]. cbn. auto. Qed.

(** ** C49. At a demonstrated state the rates of change are the demonstrated ones; and if the samples
    are consistent with Euler steps from rest, the whole rollout is the demonstration. *)
Theorem C49_rates : forall (pf : predictor) m t phs tg r, wf pf m -> synced m -> plain_goal m ->
  demo (m_dim m) t -> tj_ts t <> [] -> targets pf m t = Ok (phs, tg) -> fits pf m phs tg ->
  ana pf m (tj_ts t) false = Ok r ->
  forall k x, (k < length (tj_ts t))%nat -> dmp_regular m (nth k (tj_ts t) 0) -> length x = dim_x m ->
  (forall i, (i < m_dim m)%nat -> nth i x 0 = at_ (mrows (tj_ys t)) k i /\
     nth (m_dim m + i) x 0 = m_tau m * at_ (mrows (tj_yds t)) k i) ->
  (forall j, (2 * m_dim m <= j)%nat -> nth j x 0 = at_ (a_xs r) k j) ->
  exists m' xd, m_diffeq pf m x = Ok (m', xd) /\
    forall i, (i < m_dim m)%nat -> nth i xd 0 = at_ (mrows (tj_yds t)) k i /\
      nth (m_dim m + i) xd 0 / m_tau m = at_ (mrows (tj_ydds t)) k i.
Proof. exact at_demonstrated. Qed.
Print Assumptions C49_rates.
Theorem C49_reproduces : forall (pf : predictor) m t phs tg, wf pf m -> demo (m_dim m) t -> tj_ts t <> [] ->
  targets pf m t = Ok (phs, tg) -> fits pf m phs tg -> euler_demo (m_dim m) t ->
  (forall i, (i < m_dim m)%nat -> nth i (d_init (m_spring m)) 0 = at_ (mrows (tj_ys t)) 0 i /\ nth (m_dim m + i) (d_init (m_spring m)) 0 = 0) ->
  exists r, ana pf m (tj_ts t) false = Ok r /\
    forall k i, (k < length (tj_ts t))%nat -> (i < m_dim m)%nat ->
      yv (a_xs r) k i = at_ (mrows (tj_ys t)) k i /\ yv (a_xds r) k i = at_ (mrows (tj_yds t)) k i /\
      zv (m_dim m) (a_xds r) k i / m_tau m = at_ (mrows (tj_ydds t)) k i.
Proof. exact reproduce. Qed.
Print Assumptions C49_reproduces.
(** a DMP trained with a non-trivial demonstration, whose function approximator fits the targets *)
Example C49_case : exists m phs tg r, wf ex_pf m /\ synced m /\ plain_goal m /\ demo (m_dim m) ex_demo /\ euler_demo (m_dim m) ex_demo /\
  targets ex_pf m ex_demo = Ok (phs, tg) /\ fits ex_pf m phs tg /\ ana ex_pf m (tj_ts ex_demo) false = Ok r /\ dmp_regular m (nth 1 (tj_ts ex_demo) 0) /\
  forall i, (i < m_dim m)%nat -> nth i (d_init (m_spring m)) 0 = at_ (mrows (tj_ys ex_demo)) 0 i /\ nth (m_dim m + i) (d_init (m_spring m)) 0 = 0.
Proof.
  destruct ex_trained as (m & phs & tg & r & W & Sy & Pl & Ed & (m0 & E0 & Et) & Etg & F & Ea & Rg).
  exists m, phs, tg, r. rewrite Ed. do 3 (split; [trivial|]). split; [apply ex_is_demo|]. split; [apply ex_is_euler|]. do 3 (split; [trivial|]). split; [exact Rg|].
  destruct ex_new as (m1 & E1 & S1 & _ & _ & Ed1 & _ & _ & _ & Hg & _). rewrite E0 in E1. injection E1 as <-.
  destruct (train_ok ex_pf ex_tf m0 ex_demo m) as ((_ & _ & I & _) & _); trivial.
  { intros i p y ps _ ph. unfold ex_pf. eauto. } { rewrite Ed1. apply ex_is_demo. } { cbn. lra. }
  rewrite I, Ed. intros [|i] Hi; [|lia]. cbn. split; reflexivity.
Qed.

(** ** C50. Full statement: for all types. Missing are systems which the tau setter does not rescale:
    sigmoid systems (their rate is not touched) and damping systems (not set at all); for these the
    statement is false. *)
Theorem C50_time_scaling_partial : forall (pf : predictor) m c ts sup r m', wf pf m -> dmp_time_invariant m -> 0 < c ->
  ana pf m ts sup = Ok r -> set_tau m (c * m_tau m) = Ok m' ->
  exists r', ana pf m' (map (Rmult c) ts) sup = Ok r' /\
    forall k i, (k < length ts)%nat -> (i < m_dim m)%nat ->
      yv (a_xs r') k i = yv (a_xs r) k i /\ yv (a_xds r') k i = yv (a_xds r) k i / c /\
      zv (m_dim m) (a_xds r') k i / m_tau m' = zv (m_dim m) (a_xds r) k i / m_tau m / (c * c).
Proof.
  intros pf m c ts sup r m' W Ti Hc Er Es.
  assert (Hne : ts <> []) by exact (ana_nonempty pf m ts sup r Er W).
  assert (Ht : m_tau m <> 0) by apply W.
  destruct (set_tau_sound pf m (c * m_tau m) (wf_sound pf m W) Ht) as (m1 & E1 & S1 & _).
  { apply Rmult_integral_contrapositive_currified; [lra|exact Ht]. }
  rewrite Es in E1. injection E1 as <-.
  assert (W' : wf pf m').
  { apply sound_wf; [exact S1|]. unfold set_tau in Es. destruct (Req_EM_T _ _); [discriminate|]. injection Es as <-. exact (wf_ready pf m W). }
  destruct (ana_total pf m' (map (Rmult c) ts) sup W') as (r' & E' & Hs'); [intros H; apply map_eq_nil in H; contradiction|].
  exists r'. split; [exact E'|].
  destruct (ana_total pf m ts sup W Hne) as (r0 & E0 & Hs). rewrite Er in E0. injection E0 as <-.
  exact (scaled_rollout c Hc pf m W ts sup r r' m' Ti Es Hs Hs').
Qed.
Print Assumptions C50_time_scaling_partial.
Theorem C50_sigmoid_gating_refuted : forall ty m, ty = Kulvicius \/ ty = Countdown ->
  new_dmp ty 1 [0] [1] (Some [fa_one]) no_kw = Ok m ->
  wf pf_one m /\ exists m' r r', set_tau m (2 * m_tau m) = Ok m' /\ ana pf_one m [0; 1; 2; 3] false = Ok r /\
    ana pf_one m' (map (Rmult 2) [0; 1; 2; 3]) false = Ok r' /\
    exists k, (k < 4)%nat /\ yv (a_xs r') k 0 <> yv (a_xs r) k 0.
Proof. exact scaling_sigmoid. Qed.
Print Assumptions C50_sigmoid_gating_refuted.
Theorem C50_damping_system_refuted : forall ns m, new_dmp (Sct23 ns true) 1 [0] [1] None no_kw = Ok m ->
  forall m1, set_y0 m [0] = Ok m1 ->
  wf pf_one m1 /\ exists ts m' r r', set_tau m1 (2 * m_tau m1) = Ok m' /\ ana pf_one m1 ts false = Ok r /\
    ana pf_one m' (map (Rmult 2) ts) false = Ok r' /\
    exists k, (k < length ts)%nat /\ yv (a_xs r') k 0 <> yv (a_xs r) k 0.
Proof. exact scaling_damping. Qed.
Print Assumptions C50_damping_system_refuted.
Example C50_case : exists m, new_dmp Ijspeert 2 [5] [7] (Some [ex_fa]) no_kw = Ok m /\ wf ex_pf m /\ dmp_time_invariant m.
Proof.
  destruct ex_wf as (m & E & W & _). exists m. split; [trivial|]. split; [trivial|]. destruct ex_new as (m1 & E1 & _ & _ & _ & _ & _ & _ & _ & _ & Ego & Eda & Ega & Eph & _).
  rewrite E in E1. injection E1 as <-. unfold dmp_time_invariant. rewrite Ego, Eda, Ega, Eph. repeat split.
Qed.
Example C50_sigmoid_case : (exists m, new_dmp Kulvicius 1 [0] [1] (Some [fa_one]) no_kw = Ok m) /\
  exists m m1, new_dmp (Sct23 true true) 1 [0] [1] None no_kw = Ok m /\ set_y0 m [0] = Ok m1.
Proof.
  split.
  - destruct (new_dmp_ok pf_one Kulvicius 1 [0] [1] (Some [fa_one]) no_kw ltac:(lra) eq_refl) as (m & E & _); [..|now exists m].
    + repeat split. + exact I. + split; [right; cbn; lia|]. intros i f _ _ ph. now exists 1.
  - eexists _, _. split; reflexivity.
Qed.

(** ** C51. Systems with a goal system which approaches the attractor of the DMP, or 1 if the goal is
    rescaled: this is the case for all types but one. *)
Theorem C51_goal_moves_partial : forall (pf : predictor) m y, wf pf m -> movable m -> length y = m_dim m ->
  exists m', set_yattr m y = Ok m' /\ m_attr m' = y /\ wf pf m' /\ tracks pf m' y.
Proof. exact move_goal. Qed.
Print Assumptions C51_goal_moves_partial.
Theorem C51_goal_in_parameter_vector : forall (pf : predictor) (tf : trainer) m v, predicts pf tf -> wf pf m -> movable m ->
  selectable_dmp (pdmp_of m) -> mem "goal" (m_sel m) = true -> dmp_size (pdmp_of m) = Ok (length v) ->
  exists m', m_set_params m v = (m', Ok tt) /\ (m_dim m <= length v)%nat /\ m_attr m' = skipn (length v - m_dim m) v /\
    wf pf m' /\ tracks pf m' (m_attr m').
Proof. exact move_goal_params. Qed.
Print Assumptions C51_goal_in_parameter_vector.
Theorem C51_default_types : forall ty tau y0 attr fas kw m, 0 < tau -> full_kw (length y0) kw ->
  match ty with Sct23 true _ => False | _ => True end -> new_dmp ty tau y0 attr fas kw = Ok m -> movable m.
Proof. exact default_movable. Qed.
Print Assumptions C51_default_types.
(** with NO_SCALING the goal stays where it was *)
Theorem C51_no_scaling_refuted : forall (pf : predictor) da tau y0 attr y m m', 0 < tau -> length attr = length y0 ->
  (forall i, (i < length y0)%nat -> nth i y0 0 <> nth i attr 0) ->
  new_dmp (Sct23 true da) tau y0 attr None no_kw = Ok m -> set_yattr m y = Ok m' ->
  tracks pf m' attr /\ m_attr m' = y /\ length y = length attr.
Proof. exact no_scaling_stuck. Qed.
Print Assumptions C51_no_scaling_refuted.
Theorem C51_one_goal : forall (pf : predictor) m y y', wf pf m ->
  forall i, (i < m_dim m)%nat -> tracks pf m y -> tracks pf m y' -> nth i y 0 = nth i y' 0.
Proof. exact tracks_unique. Qed.
Print Assumptions C51_one_goal.
Example C51_case : exists m, wf ex_pf m /\ movable m /\ length [9] = m_dim m /\
  selectable_dmp (pdmp_of (m_select m (NList ["goal"; "weights"]))) /\ mem "goal" (m_sel (m_select m (NList ["goal"; "weights"]))) = true /\
  exists v : list R, dmp_size (pdmp_of (m_select m (NList ["goal"; "weights"]))) = Ok (length v).
Proof.
  destruct ex_trained as (m & phs & tg & r & W & _ & _ & Ed & (m0 & E0 & Et) & _). exists m. split; [trivial|].
  destruct ex_new as (m1 & E1 & S1 & _ & _ & Ed1 & Ef1 & Er1 & _ & Hg & Ego & _). rewrite E0 in E1. injection E1 as <-.
  destruct (train_ok ex_pf ex_tf m0 ex_demo m) as ((_ & _ & _ & Ea & _) & _ & _ & Er & _ & _ & (_ & _ & _ & _ & _ & _ & K) & _ & _ & Hf); trivial.
  { intros i p y ps _ ph. unfold ex_pf. eauto. } { rewrite Ed1. apply ex_is_demo. } { cbn. lra. }
  rewrite Ef1 in Hf. destruct Hf as (p & t' & fs' & _ & Ef' & Lf & Hfs). specialize (Hfs 0%nat ex_fa eq_refl). rewrite Ed1 in Hfs. cbn in Hfs.
  destruct Hfs as (ps & Eps & Efs). destruct fs' as [|f [|? ?]]; cbn in Lf; try discriminate. injection Efs as ->. unfold ex_tf in Eps. injection Eps as <-.
  split; [unfold movable; rewrite (K Ego); congruence|]. split; [now rewrite Ed|].
  unfold m_select, pdmp_of. cbn [m_fas m_sel m_attr m_dim upd_sel upd_fas p_fas p_sel]. rewrite Ef'. cbn. rewrite Ea, Ed. cbn.
  split; [|split; [reflexivity|]].
  - split; [|reflexivity]. constructor; [|constructor]. intros _. split; [reflexivity|]. eexists. split; [reflexivity|]. cbn.
    split; [repeat constructor; intros []|]. repeat constructor. eexists. split; [reflexivity|]. split; [discriminate|reflexivity].
  - exists [1; 2; 3]. reflexivity.
Qed.
Example C51_no_scaling_case : exists m m', new_dmp (Sct23 true false) 1 [0] [1] None no_kw = Ok m /\ set_yattr m [2] = Ok m'.
Proof. eexists _, _. split; reflexivity. Qed.

(** ** C52. For critically damped springs, steps between dmin and dmax; [critical m i D dmax] contains the
    stability limit; D is the damping coefficient, or the limit of the damping system. The number of steps N does not depend on the times. *)
Theorem C52_converges : forall (pf : predictor) m i D dmin dmax eps, wf pf m -> m_goal m = None -> m_req m = false -> settles m i D ->
  (i < m_dim m)%nat -> 0 < dmin -> critical m i D dmax -> 0 < eps ->
  exists N, forall ts r, steps dmin dmax ts -> ana pf m ts true = Ok r ->
    forall k, (N <= k)%nat -> (k < length ts)%nat -> Rabs (yv (a_xs r) k i - nth i (m_attr m) 0) < eps.
Proof.
  intros pf m i D dmin dmax eps W Hg Hr Hd Hi Hmin Hc He.
  refine (converge pf m true W _ i Hi D Hd dmin dmax Hmin Hc 0 (or_introl eq_refl) eps He). unfold follows. now rewrite Hg.
Qed.
Print Assumptions C52_converges.
Theorem C52_no_overshoot : forall (pf : predictor) m i b, wf pf m -> m_goal m = None -> m_req m = false -> m_damping m = None ->
  (i < m_dim m)%nat -> critical m i (par_val (d_damp (m_spring m)) i) 0 -> 0 <= b ->
  b * (par_val (d_damp (m_spring m)) i / (par_val (d_mass (m_spring m)) i * m_tau m)) <= 2 ->
  nth (m_dim m + i) (d_init (m_spring m)) 0 = 0 ->
  forall ts r, steps 0 b ts -> ana pf m ts true = Ok r ->
  let g := nth i (m_attr m) 0 in
  let y0 := nth i (d_init (m_spring m)) 0 in
  (forall k, (k < length ts)%nat -> 0 <= (yv (a_xs r) k i - g) * (y0 - g)) /\
  (forall k, (S k < length ts)%nat -> Rabs (yv (a_xs r) (S k) i - g) <= Rabs (yv (a_xs r) k i - g)).
Proof. exact monotone. Qed.
Print Assumptions C52_no_overshoot.
Example C52_case : exists m, wf ex_pf m /\ m_goal m = None /\ m_req m = false /\ m_damping m = None /\ (0 < m_dim m)%nat /\
  settles m 0 20 /\ critical m 0 20 0.3 /\ critical m 0 (par_val (d_damp (m_spring m)) 0) 0 /\ 0.2 * (par_val (d_damp (m_spring m)) 0 / (par_val (d_mass (m_spring m)) 0 * m_tau m)) <= 2 /\
  nth (m_dim m + 0) (d_init (m_spring m)) 0 = 0 /\ nth 0 (d_init (m_spring m)) 0 <> nth 0 (m_attr m) 0 /\
  steps 0.1 0.3 [0; 0.2; 0.5] /\ steps 0 0.2 [0; 0.2; 0.3].
Proof.
  destruct ex_wf as (m & E & W & Ed). exists m. split; [trivial|]. destruct ex_new as (m1 & E1 & _ & _ & _ & _ & _ & Er & _ & _ & Ego & Eda & _ & _ & Esp & Et).
  pose proof E as Em. rewrite E in E1. injection E1 as <-. cbn in Em. injection Em as Em.
  assert (Ea : m_attr m = [7]) by now rewrite <- Em.
  unfold critical, settles. cbv zeta. rewrite Ego, Er, Eda, Esp, Et, Ed, Ea. cbn.
  do 3 (split; [reflexivity|]). split; [lia|]. split; [reflexivity|]. do 3 (split; [lra|]). split; [reflexivity|]. split; [lra|].
  unfold steps. cbn. repeat split; try lra; destruct k as [|[|k]]; cbn in *; try lia; lra.
Qed.

(** ** C53. *)
Theorem C53_rollout : forall (pf : predictor) m ts sup, wf pf m -> ts <> [] ->
  exists r, ana pf m ts sup = Ok r /\ rollout_spec pf m ts sup r.
Proof. exact ana_total. Qed.
Print Assumptions C53_rollout.
(** the specification determines the result *)
Theorem C53_rollout_unique : forall (pf : predictor) m ts sup r r', rollout_spec pf m ts sup r -> rollout_spec pf m ts sup r' -> r = r'.
Proof. exact rollout_unique. Qed.
Print Assumptions C53_rollout_unique.
Theorem C53_as_trajectory : forall (pf : predictor) m ts sup r, wf pf m -> ana pf m ts sup = Ok r ->
  let n := m_dim m in
  states_as_rows m (a_xs r) (a_xds r) = Ok (map (fun k =>
    (map (yv (a_xs r) k) (seq 0 n), map (yv (a_xds r) k) (seq 0 n), map (fun i => zv n (a_xds r) k i / m_tau m) (seq 0 n)))
    (seq 0 (length ts))).
Proof. exact states_rows. Qed.
Print Assumptions C53_as_trajectory.
Example C53_case : exists m, new_dmp Ijspeert 2 [5] [7] (Some [ex_fa]) no_kw = Ok m /\ wf ex_pf m.
Proof. destruct ex_wf as (m & E & W & _). now exists m. Qed.

(** ** C54. The copy made by the constructor of the task solver is modelled by values: the caller's DMP
    is not part of the solver. *)
Theorem C54_history_free : forall (pf : predictor) s hs x, wf pf (o_dmp s) -> selectable_dmp (pdmp_of (o_dmp s)) ->
  snd (rollout pf (rollouts pf s hs) x) = snd (rollout pf s x).
Proof.
  intros pf s hs x W Hs. exact (history_free (o_dmp s) Hs (wf_attr_len pf _ W) pf s hs x eq_refl).
Qed.
Print Assumptions C54_history_free.
(** T / dt rounded down plus one time steps, equidistant from 0 to T *)
Theorem C54_times : forall m dt factor s, 0 < dt -> 0 <= m_tau m * factor -> new_solver m dt factor = Ok s ->
  o_dmp s = m /\ o_time s = m_tau m * factor /\ (1 <= o_n s)%Z /\
  (IZR (o_n s) - 1) * dt <= o_time s < IZR (o_n s) * dt /\
  exists ts, linspace0 (o_time s) (o_n s) = Ok ts /\ length ts = Z.to_nat (o_n s) /\ nth 0 ts 0 = 0 /\
    ((2 <= o_n s)%Z -> last ts 0 = o_time s /\
       forall k, (S k < length ts)%nat -> nth (S k) ts 0 - nth k ts 0 = o_time s / (IZR (o_n s) - 1)).
Proof.
  intros m dt factor s Hd Ht E. destruct (solver_steps m dt factor s Hd Ht E) as (H1 & H2 & H3 & H4).
  do 4 (split; [trivial|]). now apply linspace_spec.
Qed.
Print Assumptions C54_times.
(** what a rollout consists of *)
Theorem C54_rollout : forall (pf : predictor) s x m', wf pf m' -> m_set_params (o_dmp s) x = (m', Ok tt) -> (1 <= o_n s)%Z ->
  exists ts r, linspace0 (o_time s) (o_n s) = Ok ts /\ ana pf m' ts false = Ok r /\
    snd (rollout pf s x) = Ok (map (fun k =>
      (nth k ts 0, (map (yv (a_xs r) k) (seq 0 (m_dim m')), map (yv (a_xds r) k) (seq 0 (m_dim m')),
                    map (fun i => zv (m_dim m') (a_xds r) k i / m_tau m') (seq 0 (m_dim m'))))) (seq 0 (length ts))).
Proof.
  intros pf s x m' W E Hn. destruct (linspace_spec (o_time s) (o_n s) Hn) as (ts & Ets & L & _).
  destruct (ana_total pf m' ts false W) as (r & Er & _); [intros ->; cbn in L; lia|]. exists ts, r. split; [trivial|]. split; [trivial|].
  unfold rollout. rewrite E. cbn [snd]. unfold rollout_dmp. cbn [o_time o_n]. rewrite Ets. cbn [bind]. rewrite Er. cbn [bind].
  rewrite (states_rows pf m' ts false r W Er). cbn [bind]. f_equal.
  set (f := fun k => _). assert (G : forall (l : list R) j g, combine l (map g (seq j (length l))) = map (fun k => (nth (k - j) l 0, g k)) (seq j (length l)) :> list (R * (list R * list R * list R))).
  { induction l as [|a l IH]; intros j g; [reflexivity|]. cbn [length seq map combine]. rewrite IH, Nat.sub_diag. cbn [nth]. f_equal.
    apply map_ext_in. intros k Hk. apply in_seq in Hk. replace (k - j)%nat with (S (k - S j)) by lia. reflexivity. }
  rewrite G. apply map_ext. intros k. now rewrite Nat.sub_0_r.
Qed.
Print Assumptions C54_rollout.
Example C54_case : exists m s, wf ex_pf m /\ selectable_dmp (pdmp_of m) /\ mem "goal" (m_sel m) = true /\ new_solver m 0.5 1.5 = Ok s /\ 0 <= m_tau m * 1.5 /\
  (exists m' : dmp, m_set_params m [1; 2; 3] = (m', Ok tt)).
Proof.
  destruct ex_trained as (m & phs & tg & r & W & _ & _ & Ed & (m0 & E0 & Et) & _).
  destruct ex_new as (m1 & E1 & S1 & _ & _ & Ed1 & Ef1 & Er1 & _ & Hg & Ego & _). rewrite E0 in E1. injection E1 as <-.
  destruct (train_ok ex_pf ex_tf m0 ex_demo m) as ((Ett & _ & _ & Ea & _) & _ & _ & Er & _ & _ & (_ & _ & _ & _ & _ & _ & K) & _ & _ & Hf); trivial.
  { intros i p y ps _ ph. unfold ex_pf. eauto. } { rewrite Ed1. apply ex_is_demo. } { cbn. lra. }
  rewrite Ef1 in Hf. destruct Hf as (p & t' & fs' & _ & Ef' & Lf & Hfs). specialize (Hfs 0%nat ex_fa eq_refl). rewrite Ed1 in Hfs. cbn in Hfs.
  destruct Hfs as (ps & Eps & Efs). destruct fs' as [|f [|? ?]]; cbn in Lf; try discriminate. injection Efs as ->. unfold ex_tf in Eps. injection Eps as <-.
  exists (m_select m (NList ["goal"; "weights"])). cbn in Ett.
  assert (Hs : selectable_dmp (pdmp_of (m_select m (NList ["goal"; "weights"]))) /\ dmp_size (pdmp_of (m_select m (NList ["goal"; "weights"]))) = Ok 3%nat).
  { unfold m_select, pdmp_of. cbn [m_fas m_sel m_attr m_dim upd_sel upd_fas p_fas p_sel]. rewrite Ef'. cbn. rewrite Ea, Ed. cbn. split; [|reflexivity].
    split; [|reflexivity]. constructor; [|constructor]. intros _. split; [reflexivity|]. eexists. split; [reflexivity|]. cbn.
    split; [repeat constructor; intros []|]. repeat constructor. eexists. split; [reflexivity|]. split; [discriminate|reflexivity]. }
  destruct Hs as [Hs Hz].
  assert (W' : wf ex_pf (m_select m (NList ["goal"; "weights"]))).
  { destruct (select_sound ex_pf m (NList ["goal"; "weights"]) (wf_sound ex_pf m W)) as (Q1 & _ & Q2). apply sound_wf; [exact Q1|]. apply Q2, (wf_ready ex_pf m W). }
  eexists. split; [exact W'|]. split; [exact Hs|]. split; [reflexivity|]. split; [|split].
  - unfold new_solver. destruct (Req_EM_T 0.5 0); [lra|reflexivity].
  - cbn. rewrite Ett. lra.
  - destruct (set_params_ok _ Hs (wf_attr_len ex_pf _ W') [1; 2; 3] Hz) as (_ & _ & _ & m' & E & _). now exists m'.
Qed.

(** ** C77. The attributes y_init and scaling amplitudes are not set by the constructor. *)
Theorem C77_usable_at_once_partial : forall (pf : predictor) ty tau y0 attr fas kw m, 0 < tau -> length attr = length y0 -> full_kw (length y0) kw ->
  distinct_for ty y0 attr ->
  (match fas with None => True | Some fs => (fs = [] \/ (length y0 <= length fs)%nat) /\
     forall i f, nth_error fs i = Some f -> is_trained f = true -> forall ph, exists v, pf i (f_model f) ph = Ok v end) ->
  new_dmp ty tau y0 attr fas kw = Ok m -> opt (k_scaling kw) NoScaling = NoScaling ->
  match ty with Sct23 false _ => False | _ => True end ->
  wf pf m /\ m_dim m = length y0 /\
  (exists m' x xd, m_start pf m None = Ok (m', x, xd) /\
     forall i, (i < length y0)%nat -> nth i x 0 = nth i y0 0 /\ nth (length y0 + i) x 0 = 0) /\
  forall ts sup, ts <> [] -> exists r, ana pf m ts sup = Ok r /\
     forall i, (i < length y0)%nat -> yv (a_xs r) 0 i = nth i y0 0.
Proof.
  intros pf ty tau y0 attr fas kw m H1 H2 H3 H4 H5 E Hs Hty.
  destruct (fresh_ready pf ty tau y0 attr fas kw m H1 H2 H3 H4 H5 E) as (S & Sy & Pl & Rg & Ed & Ey & Er & Esc & Ea & Ei).
  assert (Hr : m_req m = false) by (rewrite Er; destruct ty as [| | |[|] d]; trivial; contradiction).
  assert (W : wf pf m).
  { apply sound_wf; [exact S|]. split; [rewrite Hr, Esc, Hs; intros [H|H]; discriminate|rewrite Esc, Hs; discriminate]. }
  assert (Hp : forall i, (i < length y0)%nat -> nth i (pad (2 * length y0) y0) 0 = nth i y0 0 /\ nth (length y0 + i) (pad (2 * length y0) y0) 0 = 0).
  { intros i Hi. unfold pad. rewrite app_nth1 by lia. split; [reflexivity|]. rewrite app_nth2 by lia. apply nth_repeat. }
  split; [exact W|]. split; [exact Ed|]. split.
  - destruct (start_state pf m W Sy Pl Rg) as (m' & x & xd & Es & _ & Hx). exists m', x, xd. split; [exact Es|]. intros i Hi.
    rewrite !Hx by (rewrite Ed; lia). rewrite Ei. now apply Hp.
  - intros ts sup Ht. destruct (ana_total pf m ts sup W Ht) as (r & Er' & Sp). exists r. split; [exact Er'|]. intros i Hi.
    destruct Sp as (_ & _ & _ & _ & _ & _ & _ & _ & _ & _ & H0 & _). rewrite Ed in H0. rewrite (proj1 (H0 i Hi)), Ei. now apply Hp.
Qed.
Print Assumptions C77_usable_at_once_partial.
(** ... but with the default of SCT_23, which rescales its goal system, y_init is needed *)
Theorem C77_fresh_sct23_refuted : forall (pf : predictor) da tau y0 attr m, 0 < tau -> length attr = length y0 ->
  new_dmp (Sct23 false da) tau y0 attr None no_kw = Ok m ->
  m_start pf m None = Err AttributeError /\ forall ts sup, ts <> [] -> ana pf m ts sup = Err AttributeError.
Proof.
  intros pf da tau y0 attr m H1 H2 E.
  destruct (fresh_ready pf (Sct23 false da) tau y0 attr None no_kw m H1 H2) as (S & Sy & Pl & Rg & Ed & Ey & Er & Esc & Ea & Ei); trivial.
  { repeat split. } { exact I. }
  split; [now apply start_no_y0|]. intros ts sup Ht. apply ana_no_y0; trivial.
  - left. rewrite Esc. discriminate.
  - now left.
  - rewrite Ea. discriminate.
Qed.
Print Assumptions C77_fresh_sct23_refuted.
Theorem C77_fresh_scaling_refuted : forall (pf : predictor) m ts sup, sound pf m -> ts <> [] ->
  (m_scaling m = GMinusY0 -> m_y0 m = None -> ana pf m ts sup = Err AttributeError) /\
  (m_scaling m = Amplitude -> m_amps m = None -> ana pf m ts sup = Err TypeError).
Proof.
  intros pf m ts sup S Ht. split; intros Hs Hn.
  - assert (H : ana pf m ts sup = ana pf (upd_amps m None) ts sup).
    { assert (Hf : factors m TypeError = factors (upd_amps m None) TypeError) by (unfold factors; cbn; now rewrite Hs).
      unfold ana. rewrite <- Hf. unfold factors. rewrite Hs. unfold y0_of. rewrite Hn. reflexivity. }
    rewrite H. apply (ana_no_y0 pf (upd_amps m None)); trivial; cbn; [now left; rewrite Hs|now right|discriminate].
  - now apply ana_no_amps.
Qed.
Print Assumptions C77_fresh_scaling_refuted.
Example C77_case : (exists m, new_dmp (Sct23 true false) 2 [0; 5] [1; 6] None no_kw = Ok m) /\ distinct_for (Sct23 true false) [0; 5] [1; 6] /\
  full_kw 2 no_kw /\ (exists m, new_dmp (Sct23 false true) 2 [0; 5] [1; 6] None no_kw = Ok m) /\
  exists m, new_dmp Ijspeert 2 [5] [7] None (Kw None None None None None None (Some Amplitude) None) = Ok m /\ sound ex_pf m /\ m_scaling m = Amplitude /\ m_amps m = None.
Proof.
  split; [eexists; reflexivity|]. split; [intros [|[|i]] H; cbn in *; try lra; lia|]. split; [repeat split|]. split; [eexists; reflexivity|].
  destruct (new_dmp_ok ex_pf Ijspeert 2 [5] [7] None (Kw None None None None None None (Some Amplitude) None) ltac:(lra) eq_refl) as (m & E & S & _ & _ & _ & _ & _ & _ & _ & _ & Hs & Ha & _).
  { repeat split. } { exact I. } { exact I. } exists m. split; [trivial|]. split; [trivial|]. now split.
Qed.

(** ** C78. *)
Theorem C78_rows_satisfy_equation : forall (pf : predictor) m ts r, wf pf m -> synced m -> plain_goal m -> ana pf m ts false = Ok r ->
  forall k, (k < length ts)%nat -> dmp_regular m (nth k ts 0) ->
    exists m', m_diffeq pf m (nth k (a_xs r) []) = Ok (m', nth k (a_xds r) []).
Proof. exact rows_solve. Qed.
Print Assumptions C78_rows_satisfy_equation.
Theorem C78_start_is_first_row : forall (pf : predictor) m ts sup r, wf pf m -> synced m -> plain_goal m -> dmp_regular m 0 ->
  ana pf m (0 :: ts) sup = Ok r ->
  exists m' xd, m_start pf m None = Ok (m', nth 0 (a_xs r) [], xd) /\ (sup = false -> xd = nth 0 (a_xds r) []).
Proof. exact start_first. Qed.
Print Assumptions C78_start_is_first_row.
Example C78_case : exists m, wf ex_pf m /\ synced m /\ plain_goal m /\ dmp_regular m 1.
Proof. destruct ex_trained as (m & _ & _ & _ & W & Sy & Pl & _ & _ & _ & _ & _ & Rg). now exists m. Qed.

(** ** C79. *)
Theorem C79_histories : forall (pf : predictor) (tf : trainer) cs m m' ts sup, predicts pf tf -> sound pf m ->
  (ready m \/ exists t, In (XTrain t) cs) -> allowed pf tf m cs -> apply_all pf tf m cs = Ok m' -> ts <> [] ->
  m_dim m' = m_dim m /\ exists r, ana pf m' ts sup = Ok r /\ rollout_spec pf m' ts sup r.
Proof. intros pf tf cs m m' ts sup Pr. exact (history_rollout pf tf Pr cs m m' ts sup). Qed.
Print Assumptions C79_histories.
Example C79_case : exists m m', predicts ex_pf ex_tf /\ sound ex_pf m /\
  let cs := [XTau 4; XTrain ex_demo; XDecouple; XSelect (NList ["goal"; "weights"]); XParams [1; 2; 3]; XAttr [8]; XCall (CAna [0; 1] false)] in
  allowed ex_pf ex_tf m cs /\ apply_all ex_pf ex_tf m cs = Ok m'.
Proof.
  destruct ex_new as (m & E & S & Sy & Pl & Ed & Ef & Er & Es & Hg & Ego & Eda & Ega & Eph & Esp & Eta). exists m.
  destruct (set_tau_sound ex_pf m 4 S ltac:(rewrite Eta; lra) ltac:(lra)) as (m1 & E1 & S1 & T1).
  assert (F1 : m_dim m1 = 1%nat /\ m_fas m1 = Some [ex_fa] /\ m_goal m1 = None /\ m_scaling m1 = NoScaling /\ exists c, c <> 0 /\ m_gating m1 = SubE (Esys c [1] [0] (PScal 4))).
  { unfold set_tau in E1. destruct (Req_EM_T _ _); [discriminate|]. injection E1 as <-. cbn. rewrite Ego, Ega. cbn. repeat split; trivial. eexists. split; [|reflexivity]. rewrite Eta. lra. }
  destruct F1 as (Ed1 & Ef1 & Ego1 & Es1 & c1 & Hc1 & Ega1).
  assert (A1 : allowed1 m1 (XTrain ex_demo)).
  { cbn [allowed1]. rewrite Ed1. split; [apply ex_is_demo|]. split; [cbn; lra|]. right. now rewrite Ego1. }
  assert (Et : exists m2, m_train ex_pf ex_tf m1 ex_demo = Ok m2).
  { apply train_total; trivial.
    - intros i phs ys ps H ph. unfold ex_pf. eauto.
    - intros. unfold ex_tf. eauto.
    - rewrite Ed1. apply ex_is_demo.
    - discriminate.
    - cbn. lra.
    - apply A1.
    - intros fs. rewrite Ef1, Ed1. intros H. injection H as <-. cbn. lia.
    - intros c ts xs xds k Hc Ex Hk. rewrite Ega1 in Ex. cbn [sub_set_tau e_init e_attr e_alpha] in Ex.
      destruct (exp_gating c 4 Hc ts) as (xs' & xds' & E' & H). rewrite E' in Ex. injection Ex as <- <-. rewrite H by trivial.
      pose proof (exp_pos (- (4) * nth k ts 0 / c)). lra. }
  destruct Et as (m2 & E2).
  destruct (train_ok ex_pf ex_tf m1 ex_demo m2) as ((Ett & _ & _ & Ea & _) & W2 & Ed2 & Er2 & _ & _ & (_ & _ & _ & _ & _ & _ & K) & _ & _ & Hf); trivial.
  { intros i p y ps _ ph. unfold ex_pf. eauto. } { apply A1. } { cbn. lra. } { apply A1. }
  specialize (K Ego1). rewrite Ed1 in Ed2.
  rewrite Ef1 in Hf. destruct Hf as (p & t' & fs' & _ & Ef' & Lf & Hfs). specialize (Hfs 0%nat ex_fa eq_refl). rewrite Ed1 in Hfs. cbn in Hfs.
  destruct Hfs as (ps & Eps & Efs). destruct fs' as [|f [|? ?]]; cbn in Lf; try discriminate. injection Efs as ->. unfold ex_tf in Eps. injection Eps as <-.
  set (m3 := m_decouple m2). set (m4 := m_select m3 (NList ["goal"; "weights"])).
  assert (W4 : wf ex_pf m4).
  { destruct (select_sound ex_pf m3 (NList ["goal"; "weights"])) as (Q1 & _ & Q2); [apply decouple_sound, wf_sound; exact W2|].
    apply sound_wf; [exact Q1|]. apply Q2. exact (wf_ready ex_pf m2 W2). }
  assert (Hs : selectable_dmp (pdmp_of m4) /\ dmp_size (pdmp_of m4) = Ok 3%nat).
  { unfold m4, m3, m_select, m_decouple, pdmp_of. cbn [m_fas m_sel m_attr m_dim upd_sel upd_fas upd_sub p_fas p_sel]. rewrite Ef'. cbn. rewrite Ea, Ed2. cbn. split; [|reflexivity].
    split; [|reflexivity]. constructor; [|constructor]. intros _. split; [reflexivity|]. eexists. split; [reflexivity|]. cbn.
    split; [repeat constructor; intros []|]. repeat constructor. eexists. split; [reflexivity|]. split; [discriminate|reflexivity]. }
  destruct Hs as [Hs Hz]. destruct (set_params_ok m4 Hs (wf_attr_len ex_pf _ W4) [1; 2; 3] Hz) as (_ & _ & _ & m5 & E5 & _).
  destruct (params_sound ex_pf ex_tf ex_predicts m4 [1; 2; 3] m5 (wf_sound ex_pf m4 W4) E5) as (S5 & D5 & R5).
  assert (Ed5 : m_dim m5 = 1%nat) by (rewrite D5; exact Ed2).
  destruct (set_yattr_sound ex_pf m5 [8] S5 ltac:(now rewrite Ed5)) as (g & _ & E6 & S6).
  assert (W6 : wf ex_pf (upd_attr m5 [8] g)) by (apply sound_wf; [exact S6|]; exact (R5 (wf_ready ex_pf m4 W4))).
  destruct (ana_total ex_pf _ [0; 1] false W6 ltac:(discriminate)) as (r & E7 & _).
  exists (upd_attr m5 [8] g). split; [exact ex_predicts|]. split; [exact S|]. cbv zeta. cbn [allowed apply_all apply1 reply1].
  rewrite E1. cbn [bind]. rewrite E2. cbn [bind]. fold m3. fold m4. rewrite E5. cbn [bind]. rewrite E6. cbn [bind]. rewrite E7. cbn [bind fst].
  split; [|reflexivity]. split; [cbn; lra|]. split; [exact A1|]. repeat split.
Qed.

(** ** C80. *)
Theorem C80_training : forall (pf : predictor) (tf : trainer) m t m', predicts pf tf -> sound pf m -> demo (m_dim m) t -> last (tj_ts t) 0 <> 0 ->
  goal_accepts m (nth 0 (mrows (tj_ys t)) []) -> m_train pf tf m t = Ok m' ->
  trained_on t m' /\ wf pf m' /\ m_dim m' = m_dim m /\ m_req m' = m_req m /\ m_scaling m' = m_scaling m /\ m_sel m' = m_sel m /\
  keeps_constants m m' /\
  ((m_req m = false \/ forall e, m_goal m <> Some (SubE e)) -> synced m') /\ (plain_goal m -> plain_goal m') /\
  match m_fas m with
  | None => m_fas m' = None
  | Some fs => exists phs tg fs', targets pf m' t = Ok (phs, tg) /\ m_fas m' = Some fs' /\ length fs' = length fs /\
      forall i f, nth_error fs i = Some f ->
        if (i <? m_dim m)%nat then exists ps, tf i phs (col i tg) = Ok ps /\ nth_error fs' i = Some (Fa ps (Some 1%nat) (f_sel f))
        else nth_error fs' i = Some f
  end.
Proof. intros pf tf m t m' [_ Pr] S. apply train_ok; trivial. intros i phs ys ps H ph. exact (Pr i phs ys ps ph H). Qed.
Print Assumptions C80_training.
Theorem C80_training_succeeds : forall (pf : predictor) (tf : trainer) m t, predicts pf tf -> (forall i phs ys, exists ps, tf i phs ys = Ok ps) ->
  sound pf m -> demo (m_dim m) t -> tj_ts t <> [] -> last (tj_ts t) 0 <> 0 ->
  goal_accepts m (nth 0 (mrows (tj_ys t)) []) -> m_scaling m = NoScaling ->
  (forall fs, m_fas m = Some fs -> (m_dim m <= length fs)%nat) ->
  (forall c ts xs xds k, c <> 0 -> sub_ana (sub_set_tau (m_gating m) c) ts = Ok (xs, xds) -> (k < length ts)%nat -> at_ xs k 0 <> 0) ->
  exists m', m_train pf tf m t = Ok m'.
Proof. intros pf tf m t [_ Pr]. apply train_total. intros i phs ys ps H ph. exact (Pr i phs ys ps ph H). Qed.
Print Assumptions C80_training_succeeds.
Example C80_case : predicts ex_pf ex_tf /\ demo 1 ex_demo /\ last (tj_ts ex_demo) 0 <> 0 /\
  exists m m', new_dmp Ijspeert 2 [5] [7] (Some [ex_fa]) no_kw = Ok m /\ sound ex_pf m /\ m_dim m = 1%nat /\ goal_accepts m (nth 0 (mrows (tj_ys ex_demo)) []) /\
    m_train ex_pf ex_tf m ex_demo = Ok m'.
Proof.
  split; [apply ex_predicts|]. split; [apply ex_is_demo|]. split; [cbn; lra|]. destruct ex_train as (m & m' & E & E').
  destruct ex_new as (m1 & E1 & S & _ & _ & Ed & _ & _ & _ & Hg & _). rewrite E in E1. injection E1 as <-. exists m, m'. auto.
Qed.

(** ** C81. *)
Theorem C81_decouple : forall (pf : predictor) m, wf pf m ->
  (forall ts sup r, ana pf m ts sup = Ok r -> ana pf (m_decouple m) ts sup = Ok r) /\
  (forall x, m_diffeq pf (m_decouple m) x = let* p := m_diffeq pf m x in Ok (m_decouple (fst p), snd p)).
Proof. intros pf m W. split; [intros ts sup r; now apply decouple_ana|intros x; now apply decouple_diffeq]. Qed.
Print Assumptions C81_decouple.
Example C81_case : exists m, wf ex_pf m /\ d_damp (m_spring (m_decouple m)) <> d_damp (m_spring m).
Proof. destruct ex_wf as (m & E & W & _). exists m. split; [trivial|]. cbn in E. injection E as <-. discriminate. Qed.

(** ** C82. The types with a goal that cannot follow the attractor are excluded by [follows], those with a
    gating that does not vanish by [limit]; D is the damping coefficient, or the limit of the damping
    system. *)
Theorem C82_converges : forall (pf : predictor) m sup i D dmin dmax Bf eps, wf pf m -> follows m -> settles m i D ->
  (i < m_dim m)%nat -> 0 < dmin -> critical m i D dmax ->
  sup = true \/ (limit (m_gating m) 0 0 /\ forall ph, Rabs (pred_val pf m ph i) <= Bf) -> 0 < eps ->
  exists N, forall ts r, steps dmin dmax ts -> ana pf m ts sup = Ok r ->
    forall k, (N <= k)%nat -> (k < length ts)%nat -> Rabs (yv (a_xs r) k i - nth i (m_attr m) 0) < eps.
Proof. intros pf m sup i D dmin dmax Bf eps W Fo Nd Hi Hmin Hc Hf He. exact (converge pf m sup W Fo i Hi D Nd dmin dmax Hmin Hc Bf Hf eps He). Qed.
Print Assumptions C82_converges.
(** for every type but NO_SCALING (whose goal does not follow: C51_no_scaling_refuted), after every history of
    training, new starts, goals, durations and parameters, and executions; alpha is the damping
    coefficient of the constructor *)
Theorem C82_types : forall (pf : predictor) (tf : trainer) ty tau y0 attr fas kw m cs m' sup i dmin dmax Bf eps, predicts pf tf ->
  0 < tau -> length attr = length y0 -> full_kw (length y0) kw -> (forall b, ty <> Sct23 true b) ->
  new_dmp ty tau y0 attr fas kw = Ok m -> sound pf m -> allowed pf tf m cs -> Forall forward cs -> apply_all pf tf m cs = Ok m' ->
  ready m' -> (i < length y0)%nat ->
  let alpha := par_val (opt (k_alpha kw) (PScal 20)) i in
  0 < alpha -> 0 < dmin -> dmax * alpha < 4 * m_tau m' ->
  sup = true \/ (forall ph, Rabs (pred_val pf m' ph i) <= Bf) -> 0 < eps ->
  exists N, forall ts r, steps dmin dmax ts -> ana pf m' ts sup = Ok r ->
    forall k, (N <= k)%nat -> (k < length ts)%nat -> Rabs (yv (a_xs r) k i - nth i (m_attr m') 0) < eps.
Proof. exact history_converge. Qed.
Print Assumptions C82_types.
Example C82_case : exists m m1, new_dmp (Sct23 false true) 2 [5] [7] (Some [fa_one]) no_kw = Ok m /\ set_y0 m [5] = Ok m1 /\
  wf pf_one m1 /\ follows m1 /\ m_damping m1 <> None /\ settles m1 0 20 /\ critical m1 0 20 0.3 /\ limit (m_gating m1) 0 0 /\
  (forall ph, Rabs (pred_val pf_one m1 ph 0) <= 1) /\ pred_val pf_one m1 0 0 = 1.
Proof.
  destruct (new_dmp_ok pf_one (Sct23 false true) 2 [5] [7] (Some [fa_one]) no_kw ltac:(lra) eq_refl) as (m & E & S & _ & _ & Ed & _ & _ & _ & _ & _ & Hs & _ & _ & _ & _ & _ & Hg).
  { repeat split. } { exact I. } { split; [right; cbn; lia|]. intros i f _ _ ph. now exists 1. }
  destruct (set_y0_sound pf_one m [5] S ltac:(now rewrite Ed) ltac:(apply Hg; [reflexivity|exact I])) as (m1 & E1 & S1 & Y1 & _).
  exists m, m1. split; [exact E|]. split; [exact E1|].
  assert (W : wf pf_one m1).
  { apply sound_wf; [exact S1|]. split; [intros _; rewrite Y1; discriminate|]. intros H. exfalso.
    unfold set_y0 in E1. destruct (Nat.eqb _ _); [|discriminate]. destruct (d_set_y_init _ _); [|discriminate]. cbn [bind] in E1.
    destruct (match m_goal m with Some g => _ | None => _ end); [|discriminate]. injection E1 as <-. cbn in H. rewrite Hs in H. discriminate. }
  split; [exact W|]. cbn in E. injection E as <-. cbn in E1. injection E1 as <-.
  split; [intros [|i] Hi; [|cbn in Hi; lia]; cbn; split; [reflexivity|lra]|]. split; [discriminate|]. split; [cbn; split; [reflexivity|lra]|].
  split; [unfold critical; cbn; lra|]. split; [cbn; split; [reflexivity|lra]|]. split; [|reflexivity].
  intros ph. unfold pred_val, pf_one. cbn. rewrite Rabs_R1. lra.
Qed.
Example C82_types_case : exists m m', let cs := [XY0 [4]; XTau 3; XAttr [9]; XDecouple; XCall (CAna [0; 1] false)] in
  predicts pf_one ex_tf /\ full_kw 1 no_kw /\ new_dmp (Sct23 false true) 2 [5] [7] (Some [fa_one]) no_kw = Ok m /\ sound pf_one m /\
  allowed pf_one ex_tf m cs /\ Forall forward cs /\ apply_all pf_one ex_tf m cs = Ok m' /\ ready m' /\ m_damping m' <> None /\
  0.5 * par_val (opt (k_alpha no_kw) (PScal 20)) 0 < 4 * m_tau m' /\ (forall ph, Rabs (pred_val pf_one m' ph 0) <= 1) /\ (forall ph, pred_val pf_one m' ph 0 = 1).
Proof.
  destruct (new_dmp_ok pf_one (Sct23 false true) 2 [5] [7] (Some [fa_one]) no_kw ltac:(lra) eq_refl) as (m & E & S & _).
  { repeat split. } { exact I. } { split; [right; cbn; lia|]. intros i f _ _ ph. now exists 1. }
  assert (P : predicts pf_one ex_tf) by (split; intros; unfold pf_one; eauto).
  set (c3 := 3). assert (H3 : c3 = 3) by reflexivity. clearbody c3.
  destruct (set_y0 m [4]) as [m1|] eqn:E1; [|cbn in E; injection E as <-; discriminate E1].
  assert (exists m2, set_tau m1 c3 = Ok m2) as [m2 E2].
  { unfold set_tau. destruct (Req_EM_T _ _) as [H|H]; [|eauto]. exfalso. cbn in E. injection E as <-. cbn in E1. injection E1 as <-. cbn in H. lra. }
  destruct (set_yattr m2 [9]) as [m3|] eqn:E3.
  2:{ exfalso. unfold set_tau in E2. destruct (Req_EM_T _ _); [discriminate|]. injection E2 as <-. cbn in E. injection E as <-. cbn in E1. injection E1 as <-. discriminate E3. }
  assert (A : allowed1 m (XY0 [4])).
  { left. cbn in E. injection E as <-. reflexivity. }
  assert (S3 : sound pf_one m3 /\ ready m3 /\ m_damping m3 <> None /\ m_tau m3 = 3 /\ m_dim m3 = 1%nat /\ m_fas m3 = Some [fa_one]).
  { destruct (history_sound pf_one ex_tf P [XY0 [4]; XTau c3; XAttr [9]] m m3 S) as (S3 & _).
    { cbn [allowed apply1]. rewrite E1. split; [exact A|]. rewrite E2. split; [cbn; lra|]. rewrite E3. now split. }
    { cbn [apply_all apply1]. rewrite E1. cbn [bind]. rewrite E2. cbn [bind]. now rewrite E3. }
    split; [exact S3|]. unfold set_yattr in E3. destruct (Nat.eqb _ _); [|discriminate]. destruct (goal_attr m2 [9]); [|discriminate]. injection E3 as <-.
    unfold set_tau in E2. destruct (Req_EM_T _ _); [discriminate|]. injection E2 as <-. cbn in E. injection E as <-. cbn in E1. injection E1 as <-.
    split; [split; [discriminate|intros H; discriminate H]|]. split; [discriminate|]. repeat split; assumption. }
  destruct S3 as (S3 & R3 & D3 & T3 & N3 & F3).
  assert (W4 : wf pf_one (m_decouple m3)) by (apply sound_wf; [now apply decouple_sound|exact R3]).
  destruct (ana_total pf_one (m_decouple m3) [0; 1] false W4 ltac:(discriminate)) as (r & Er & _).
  exists m, (m_decouple m3). cbv zeta. split; [exact P|]. split; [repeat split|]. split; [exact E|]. split; [exact S|].
  split. { cbn [allowed apply1]. rewrite E1. split; [exact A|]. rewrite E2. split; [cbn; lra|]. rewrite E3. split; [exact I|]. split; [exact I|]. cbn [reply1]. rewrite Er. cbn. now split. }
  split. { repeat constructor. cbn. lra. }
  split. { cbn [apply_all apply1]. rewrite E1. cbn [bind]. rewrite E2. cbn [bind]. rewrite E3. cbn [bind reply1]. rewrite Er. reflexivity. }
  split; [exact R3|]. split. { cbn. destruct (m_damping m3); [discriminate|now contradiction D3]. }
  split. { change (m_tau (m_decouple m3)) with (m_tau m3). rewrite T3. cbn. lra. }
  assert (Hp : forall ph, pred_val pf_one (m_decouple m3) ph 0 = 1).
  { intros ph. unfold pred_val. unfold fas_of, pdmp_of. cbn [m_decouple upd_sub m_fas p_fas]. rewrite F3. reflexivity. }
  split; [|exact Hp]. intros ph. rewrite Hp, Rabs_R1. lra.
Qed.

(** ** C83. *)
Theorem C83_no_side_effects : forall (pf : predictor) m cs, synced m -> replies pf m cs = fresh_replies pf m cs.
Proof. exact no_side_effects. Qed.
Print Assumptions C83_no_side_effects.
Example C83_case : exists m, new_dmp Ijspeert 2 [5] [7] (Some [ex_fa]) no_kw = Ok m /\ synced m.
Proof. destruct ex_new as (m & E & _ & Sy & _). now exists m. Qed.
