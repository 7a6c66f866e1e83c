(** C111: with a DistributionGaussianBounded, optimizations never try parameters outside the bounds, in no update and with no updater, and
    so all movements of a DMP that are tried stay close to each other. *)
From Coq Require Import String.
From Verif Require Import Base BaseLemmas SessionModel SessionSpec UpdatersModel UpdatersSpec UpdatersProofs UpdatersExamples LoopModel LoopSpec LoopProofs LoopExamples EquivSpec EquivExamples ParamModel ParamSpec FaModel TrajModel TrajSpec
  DynModel DynSpec DmpModel DmpSpec DmpProofs7 TaskModel TaskSpec CppModel CppSpec ExploreSpec ViaSpec ViaProofs5 ViaExamples ReproSpec ReproProperties UpdatersModel UpdatersSpec SafeSpec SafeProofs SafeProofs2.
Open Scope string_scope.
Open Scope R_scope.

(** Whatever the random generator, the task, the task solver and the updater do, and whether or not the run is ended by an exception: all
    means, samples and parameters that are tried are inside the bounds, and so is the final mean. *)
Theorem C111_task : forall argsort lo up N CV P S category rng u ev rl er w0 r tk ts upd d0 k n (st0 st1 : st CV P S) q,
  argsort_ok argsort -> sized rng -> ordered lo up -> bounded_dist lo up N d0 ->
  run_optimization_task CV P S category (bbo_oracles rng ev argsort u rl er) w0 r tk ts upd d0 k n st0 = (st1, q) ->
  (forall e, In e (st_trace st1) -> In e (st_trace st0) \/ event_inside lo up N e) /\ forall d', q = Ok d' -> bounded_dist lo up N d'.
Proof. intros argsort lo up N CV P S category rng u ev rl er w0 r tk ts upd d0 k n st0 st1 q Ha Hr Ho Hd E. eapply task_bounded; eassumption. Qed.
Print Assumptions C111_task.
Theorem C111_cost_function : forall argsort lo up N CV P S category rng u ev rl er w0 r cf upd d0 k n (st0 st1 : st CV P S) q,
  argsort_ok argsort -> sized rng -> ordered lo up -> bounded_dist lo up N d0 ->
  run_optimization CV P S category (bbo_oracles rng ev argsort u rl er) w0 r cf upd d0 k n st0 = (st1, q) ->
  (forall e, In e (st_trace st1) -> In e (st_trace st0) \/ event_inside lo up N e) /\ forall d', q = Ok d' -> bounded_dist lo up N d'.
Proof. intros argsort lo up N CV P S category rng u ev rl er w0 r cf upd d0 k n st0 st1 q Ha Hr Ho Hd E. eapply opt_bounded; eassumption. Qed.
Print Assumptions C111_cost_function.

(** What the robot or the cost function would do outside the bounds does not matter at all: the runs are the same, calls that raise included. *)
Theorem C111_outside : forall argsort lo up N CV P S category rng u ev rl er rl' er' w0 r tk ts upd d0 k n (st0 : st CV P S),
  argsort_ok argsort -> sized rng -> ordered lo up -> bounded_dist lo up N d0 ->
  (forall o x, inside lo up N x -> rl o x = rl' o x) -> (forall o v x, inside lo up N x -> er o v x = er' o v x) ->
  run_optimization_task CV P S category (bbo_oracles rng ev argsort u rl er) w0 r tk ts upd d0 k n st0 =
  run_optimization_task CV P S category (bbo_oracles rng ev argsort u rl' er') w0 r tk ts upd d0 k n st0.
Proof. intros. eapply task_outside; eassumption. Qed.
Print Assumptions C111_outside.
Theorem C111_outside_cost_function : forall argsort lo up N CV P S category rng u ev ev' rl er w0 r cf upd d0 k n (st0 : st CV P S),
  argsort_ok argsort -> sized rng -> ordered lo up -> bounded_dist lo up N d0 -> (forall o x, inside lo up N x -> ev o x = ev' o x) ->
  run_optimization CV P S category (bbo_oracles rng ev argsort u rl er) w0 r cf upd d0 k n st0 =
  run_optimization CV P S category (bbo_oracles rng ev' argsort u rl er) w0 r cf upd d0 k n st0.
Proof. intros. eapply opt_outside; eassumption. Qed.
Print Assumptions C111_outside_cost_function.
(** one parameter between -1 and 1, starting at 0; a robot that breaks outside *)
Example C111_outside_case : let d0 := Dist [0] (Mat 1 [[1]]) (Some (BScal (-1), BScal 1)) in
  let rl (o : nat) (x : list R) : nat * res unit := (S o, Ok tt) in
  let rl' o x := if Rlt_dec 1 (nth 0 x 0) then (S o, Err RuntimeError) else if Rlt_dec (nth 0 x 0) (-1) then (S o, Err RuntimeError) else rl o x in
  argsort_ok my_argsort /\ sized z_rng /\ ordered (BScal (-1)) (BScal 1) /\ bounded_dist (BScal (-1)) (BScal 1) 1 d0 /\
  (forall o x, inside (BScal (-1)) (BScal 1) 1 x -> rl o x = rl' o x) /\ rl 0%nat [2] <> rl' 0%nat [2].
Proof.
  cbv zeta. split; [exact my_argsort_ok|]. split; [exact z_sized|]. split; [intros j l u E1 E2; injection E1 as <-; injection E2 as <-; lra|].
  split; [split; [reflexivity|split; [reflexivity|intros [|j] Hj; [cbn; lra|lia]]]|]. split.
  - intros o x [_ H]. specialize (H 0%nat ltac:(lia)). cbn in H. destruct (Rlt_dec 1 (nth 0 x 0)); [lra|]. destruct (Rlt_dec (nth 0 x 0) (-1)); [lra|]. reflexivity.
  - cbn. destruct (Rlt_dec 1 2); [discriminate|lra].
Qed.
(** one DMP with one offset, one task, optimizations with bounds *)
Definition f_solver : solver := Solver (r_dmp 1) 1 3.
Definition f_st : st cost_vars unit (nat * DmpModel.solver) := St (0%nat, f_solver) [] (x_world, Sess 0 RNone [] None).
Definition f_run (d0 : dist) := run_optimization_task cost_vars unit (nat * DmpModel.solver) x_cat (via_oracles z_rng my_argsort (UMean "PI-BB" (EReal 10)) v_pf false (v_task (Some 1)))
  x_world RNone (OObj 1) (OObj 2) (OObj 3) d0 4 20 f_st.
Definition f_dist (x : R) : dist := Dist [x] (Mat 1 [[1]]) (Some (BScal 0, BScal 2)).
Lemma f_run_ok x : exists st1 d', f_run (f_dist x) = (st1, Ok d').
Proof.
  apply (via_succeeds exp v_kinds false my_argsort unit nat x_cat z_rng (UMean "PI-BB" (EReal 10)) f_solver (v_task (Some 1)) r_times 1 20 x_world RNone (OObj 1) (OObj 2) (OObj 3)
    (f_dist x) 4 f_st my_argsort_ok z_sized); trivial; try reflexivity; try (cbn; lia); try discriminate.
  - intros s mean C. unfold z_rng. eexists _, _. split; [reflexivity|]. unfold nrows. cbn [mrows]. now rewrite map_length, seq_length.
  - split; discriminate.
  - apply r_wf.
  - exact (v_selectable [] NoScaling 1 1).
  - exact (v_linear [] NoScaling 1 1).
  - exact v_times.
  - split; [left; discriminate|split; reflexivity].
Qed.
Lemma f_first x st1 d' : f_run (f_dist x) = (st1, Ok d') -> exists v, In (ERoll [x] v) (st_trace st1).
Proof.
  intros E. destruct (run_optimization_task_full _ _ _ _ (fun _ v => v) _ _ _ _ _ _ _ _ _ _ _ _ E) as (us & dl & rest & cs & es & Ch & _ & Tr & _ & _ & _ & _ & L & _).
  destruct us as [|t us]; [discriminate|]. exists (t_mean_vars t). rewrite Tr. cbn [f_st st_trace app flat_map]. apply in_or_app. left.
  unfold task_events, rollout_events. cbn [app fst snd]. left. cbn [chained] in Ch. destruct Ch as [Hb _]. unfold t_before in Hb. rewrite Hb. reflexivity.
Qed.
Example C111_task_case : ordered (BScal 0) (BScal 2) /\ bounded_dist (BScal 0) (BScal 2) 1 (f_dist 1) /\
  exists st1 d' v, f_run (f_dist 1) = (st1, Ok d') /\ In (ERoll [1] v) (st_trace st1).
Proof.
  split; [intros j l u E1 E2; injection E1 as <-; injection E2 as <-; lra|]. split; [split; [reflexivity|split; [reflexivity|intros [|j] Hj; [cbn; lra|lia]]]|].
  destruct (f_run_ok 1) as (st1 & d' & E). destruct (f_first 1 st1 d' E) as (v & Hv). now exists st1, d', v.
Qed.
(** The mean is not clipped: an initial mean outside the bounds is tried as it is. *)
Theorem C111_mean_refuted : exists lo up d0 st1 d' v, ordered lo up /\ d_bounds d0 = Some (lo, up) /\ f_run d0 = (st1, Ok d') /\
  In (ERoll (d_mean d0) v) (st_trace st1) /\ ~ inside lo up 1 (d_mean d0).
Proof.
  destruct (f_run_ok 5) as (st1 & d' & E). destruct (f_first 5 st1 d' E) as (v & Hv). exists (BScal 0), (BScal 2), (f_dist 5), st1, d', v.
  split; [intros j l u E1 E2; injection E1 as <-; injection E2 as <-; lra|]. split; [reflexivity|]. split; [exact E|]. split; [exact Hv|].
  intros [_ H]. specialize (H 0%nat ltac:(lia)). cbn in H. lra.
Qed.
Print Assumptions C111_mean_refuted.

(** Movements: if the bounds of the parameters are at most e apart, then the positions of any two rollouts of the whole optimization (samples
    and means of all updates, whether or not the run is ended by an exception) differ by at most c g e / a^2 at every time, where c bounds
    gating and scaling, and g is 2 for LWRs and the number of basis functions for RBFNs. *)
Theorem C111_movements : forall kinds (frame : bool) argsort P G category rng u s k lo up N e nu w0 r tk solver upd d0 j (st0 st1 : st cost_vars P (G * DmpModel.solver)) q ts i n a b c,
  let pf := py_predict exp kinds in let m := o_dmp s in
  argsort_ok argsort -> sized rng -> ordered lo up -> bounded_dist lo up N d0 ->
  wf pf m -> selectable_dmp (pdmp_of m) -> linear_params kinds m -> ~ In "goal" (m_sel m) -> basis_upto m i n ->
  dmp_size (pdmp_of m) = Ok N -> (1 <= o_n s)%Z -> 0 <= e -> narrow lo up N e ->
  linspace0 (o_time s) (o_n s) = Ok ts -> (i < m_dim m)%nat -> damped m i a b -> steps_upto b ts ->
  (forall r, ana pf m ts false = Ok r -> forall k, (k < length ts)%nat -> Rabs (pv (m_dim m) (a_xs r) k) <= 1 /\ Rabs (av (m_dim m) (a_xs r) k * DmpSpec.factor m i) <= c) ->
  snd (st_out st0) = s -> st_trace st0 = [] ->
  run_optimization_task cost_vars P (G * DmpModel.solver) category (via_oracles rng argsort u pf frame k) w0 r tk solver upd d0 j nu st0 = (st1, q) ->
  forall x v x' v', In (ERoll x v) (st_trace st1) -> In (ERoll x' v') (st_trace st1) ->
  extract_t v = Ok ts /\ extract_t v' = Ok ts /\ exists ys ys', extract_y (m_dim m) v = Ok ys /\ extract_y (m_dim m) v' = Ok ys' /\
    forall l, (l < length ts)%nat -> Rabs (mget ys' l i - mget ys l i) <= c * (gain (kinds i) n * e) / (a * a).
Proof. intros kinds frame argsort P G category rng u s k lo up N e nu w0 r tk solver upd d0 j st0 st1 q ts i n a b c pf m. apply optimization_close. Qed.
Print Assumptions C111_movements.
Example C111_movements_case : let m := r_dmp 1 in
  sized z_rng /\ ordered (BScal 0) (BScal 2) /\ bounded_dist (BScal 0) (BScal 2) 1 (f_dist 1) /\ wf v_pf m /\ selectable_dmp (pdmp_of m) /\ linear_params v_kinds m /\
  ~ In "goal" (m_sel m) /\ basis_upto m 0 1 /\ dmp_size (pdmp_of m) = Ok 1%nat /\ narrow (BScal 0) (BScal 2) 1 2 /\ linspace0 1 3 = Ok r_times /\ damped m 0 2 (1 / 2) /\ steps_upto (1 / 2) r_times /\
  (forall r, ana v_pf m r_times false = Ok r -> forall k, (k < length r_times)%nat -> Rabs (pv (m_dim m) (a_xs r) k) <= 1 /\ Rabs (av (m_dim m) (a_xs r) k * DmpSpec.factor m 0) <= 1) /\
  exists st1 d' v, f_run (f_dist 1) = (st1, Ok d') /\ In (ERoll [1] v) (st_trace st1).
Proof.
  cbv zeta. destruct C111_task_case as (O & B & Run). split; [exact z_sized|]. split; [exact O|]. split; [exact B|]. split; [apply r_wf|]. split; [exact (v_selectable [] NoScaling 1 1)|].
  split; [exact (v_linear [] NoScaling 1 1)|]. split; [intros []|]. split; [intros fs f k c E1 E2 _ E3; injection E1 as <-; injection E2 as <-; injection E3 as <- _; lia|].
  split; [reflexivity|]. split; [intros j Hj; exists 0, 2; split; [reflexivity|]; split; [reflexivity|lra]|]. split; [exact v_times|]. split; [apply r_damped|]. split; [exact r_steps|]. split; [|exact Run].
  intros r Er k Hk. destruct (ana_total v_pf (r_dmp 1) r_times false (r_wf 1) ltac:(discriminate)) as (r' & Er' & Sr). rewrite Er in Er'.
  assert (r' = r) by congruence. subst r'. destruct (r_parts 1 r Sr k Hk) as (P1 & A1 & _). split; [exact P1|exact A1].
Qed.
