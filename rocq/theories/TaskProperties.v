(** Properties of the demonstration tasks (C74, C89, C90).

    [costs_are], [counts], [late], [goal_ready], [joint_x], [joint_y], [arm_end]: see TaskSpec. *)
From Coq Require Import String.
From Verif Require Import Base BaseLemmas ParamModel ParamSpec TrajModel TrajSpec TrajExamples DynModel DmpModel DmpSpec DmpExamples TaskModel TaskSpec TaskProofs TaskProofs2 TaskProofs3 TaskExamples.
Open Scope R_scope.

(** ** C74. Full statement: evaluate_rollout returns five non-negative costs: the first is the sum of
    the others, which are, in the order of the labels, the weighted distance to the via-point (less the
    radius), the weighted mean squared acceleration, the weighted mean distance to the goal from the
    goal time on, and the weighted norm of the sample; this for cost variables given as array and as
    data frame. False for the acceleration, which depends on the goal time, and for a via-point with
    fewer dimensions than the rollout. *)
Theorem C74_sum : forall k c x cs, evaluate_rollout k c x = Ok cs ->
  length cs = (1 + length cost_labels)%nat /\ nth 0 cs 0 = nth 1 cs 0 + nth 2 cs 0 + nth 3 cs 0 + nth 4 cs 0 /\
  forall v, In v cs -> 0 <= v.
Proof.
  intros k c x cs E. unfold evaluate_rollout in E. destruct (extract_t c) as [ts|]; [|discriminate]. cbn [bind] in E.
  destruct (extract_y (n_dims k) c) as [ys|]; [|discriminate]. cbn [bind] in E. destruct (extract_ydd (n_dims k) c) as [ydds|]; [|discriminate].
  exact (evaluate_local_costs k ts (mrows ys) ydds x cs E).
Qed.
Print Assumptions C74_sum.
Theorem C74_trajectory : forall (frame : bool) k t x, consistent t -> tj_dim t = length (k_via k) ->
  (0 < tj_dim t)%nat -> tj_ts t <> [] -> (frame = true -> forall l, tj_misc t <> Some (V1 l)) -> goal_ready k (tj_ts t) ->
  exists c cs, as_cost_vars frame t = Ok c /\ evaluate_rollout k c x = Ok cs /\
    costs_are k (tj_ts t) (at2 (tj_ys t)) (at2 (tj_ydds t)) (tj_dim t) x cs.
Proof. exact traj_costs. Qed.
Print Assumptions C74_trajectory.
(** the costs are determined by this description *)
Theorem C74_unique : forall k ts Y A da x cs cs', goal_ready k ts ->
  costs_are k ts Y A da x cs -> costs_are k ts Y A da x cs' -> cs = cs'.
Proof. exact costs_unique. Qed.
Print Assumptions C74_unique.
(** no cost for the via-point if and only if the rollout passes within the radius *)
Theorem C74_radius : forall k ts Y A da x cs, costs_are k ts Y A da x cs -> 0 < k_wv k -> k_time k = None -> ts <> [] ->
  (nth 1 cs 0 = 0 <-> exists i, (i < length ts)%nat /\ dist (length (k_via k)) (Y i) (point (k_via k)) <= Rmax 0 (k_radius k)).
Proof.
  intros k ts Y A da x cs (_ & _ & V & _) W Ht Hne. destruct (V W) as (w & C & E). rewrite Ht in C. destruct C as (Hw & Hm & _). rewrite E. split.
  - intros H. exists w. split; [exact Hw|]. apply Rmult_integral in H as [H|H]; [lra|]. pose proof (Rmax_r 0 (dist (length (k_via k)) (Y w) (point (k_via k)) - Rmax 0 (k_radius k))). lra.
  - intros (i & Hi & H). specialize (Hm i Hi). rewrite Rmax_left by lra. ring.
Qed.
Print Assumptions C74_radius.
(** without costs for the goal, the second component is the weighted mean of the squared accelerations *)
Theorem C74_acceleration_partial : forall k ts Y A da x cs, costs_are k ts Y A da x cs -> 0 < k_wa k -> k_wg k <= 0 ->
  nth 2 cs 0 = k_wa k * (sumn (length ts) (fun i => sumn da (fun j => A i j ^ 2)) / INR da) / INR (length ts).
Proof.
  intros k ts Y A da x cs (_ & _ & _ & _ & H & _) W Wg. rewrite (H W). do 2 f_equal. unfold divisor.
  destruct (k_goal k); [|reflexivity]. destruct (k_goal_time k); [|reflexivity]. destruct (Rlt_dec 0 (k_wg k)); [lra|reflexivity].
Qed.
Print Assumptions C74_acceleration_partial.
(** the same rollout, and tasks that differ only in the weight of the goal: other costs for accelerations *)
Theorem C74_acceleration_refuted : exists k t x c cs cs', consistent t /\ as_cost_vars false t = Ok c /\
  evaluate_rollout k c x = Ok cs /\
  evaluate_rollout (Task (k_via k) (k_time k) (k_radius k) (k_goal k) (k_goal_time k) (k_wv k) (k_wa k) (k_wr k) 1) c x = Ok cs' /\
  nth 2 cs 0 <> nth 2 cs' 0.
Proof.
  destruct acc_changes as (cs & cs' & (c & E0 & E1 & E2) & H1 & H2). exists (ex_k 0), ex_t, [1], c, cs, cs'.
  split; [exact ex_t_ok|]. split; [exact E0|]. split; [exact E1|]. split; [exact E2|]. rewrite H1, H2. lra.
Qed.
Print Assumptions C74_acceleration_refuted.
(** a rollout that passes through the via-point at its end has costs, if the time of the via-point is later *)
Theorem C74_viapoint_time_refuted : exists k t x c cs, consistent t /\ k_via k = nth 2 (mrows (tj_ys t)) [] /\
  as_cost_vars false t = Ok c /\ evaluate_rollout k c x = Ok cs /\
  nth 1 cs 0 = k_wv k * dist 1 (at2 (tj_ys t) 0) (point (k_via k)) /\ 0 < nth 1 cs 0.
Proof.
  destruct late_viapoint as (c & cs & E0 & E1 & H). exists ex_late, ex_t, [1], c, cs. split; [exact ex_t_ok|]. split; [reflexivity|].
  split; [exact E0|]. split; [exact E1|]. rewrite H. split; [|lra]. unfold dist, at2, point. cbn.
  replace (0 + (0 - 3) * ((0 - 3) * 1)) with (3 * 3) by ring. rewrite sqrt_square by lra. ring.
Qed.
Print Assumptions C74_viapoint_time_refuted.
(** a via-point with fewer dimensions than the rollout: the costs depend on the format of the cost variables *)
Theorem C74_dims_refuted : exists k t x c c' cs cs', consistent t /\ (length (k_via k) < tj_dim t)%nat /\
  as_cost_vars false t = Ok c /\ as_cost_vars true t = Ok c' /\
  evaluate_rollout k c x = Ok cs /\ evaluate_rollout k c' x = Ok cs' /\ nth 2 cs 0 <> nth 2 cs' 0.
Proof.
  destruct smaller_viapoint as (c & c' & cs & cs' & E1 & E2 & E3 & E4 & H1 & H2). exists ex_one, ex_2d, [], c, c', cs, cs'.
  split; [exact ex_2d_ok|]. split; [cbn; lia|]. do 4 (split; [assumption|]). rewrite H1, H2. lra.
Qed.
Print Assumptions C74_dims_refuted.
(** a goal whose time is not given, or lies after the end of the rollout, cannot be evaluated *)
Theorem C74_goal_time : forall (frame : bool) k t x c g, consistent t -> tj_dim t = length (k_via k) -> tj_ts t <> [] ->
  (frame = true -> forall l, tj_misc t <> Some (V1 l)) -> as_cost_vars frame t = Ok c -> 0 < k_wg k -> k_goal k = Some g ->
  match k_goal_time k with None => True | Some gt => forall i, (i < length (tj_ts t))%nat -> nth i (tj_ts t) 0 < gt end ->
  forall cs, evaluate_rollout k c x <> Ok cs.
Proof.
  intros frame k t x c g Hc Hd Hne Hm Ec W Eg Ht cs. destruct (evaluate_traj frame k t x Hc Hd Hne Hm) as (c' & Ec' & Ev). assert (c' = c) by congruence. subst c'. rewrite Ev.
  destruct (k_goal_time k) as [gt|] eqn:Et; [|exact (goal_untimed k _ _ _ x g W Eg Et cs)].
  destruct Hc as ((_ & N & _) & _). exact (goal_missed k _ _ _ x g gt W Eg Et N Ht cs).
Qed.
Print Assumptions C74_goal_time.
(** one sample of an optimization: the costs are those of the rollout of the DMP with the sample as
    parameters, at the times 0 ... integration time *)
Theorem C74_samples : forall predict_fn (frame : bool) s k x m', wf predict_fn m' -> m_set_params (o_dmp s) x = (m', Ok tt) ->
  (1 <= o_n s)%Z -> m_dim m' = length (k_via k) -> (0 < m_dim m')%nat ->
  exists ts r, linspace0 (o_time s) (o_n s) = Ok ts /\ ana predict_fn m' ts false = Ok r /\
  (goal_ready k ts -> exists cs, snd (cost_of_sample predict_fn s frame k x) = Ok cs /\
     costs_are k ts (yv (a_xs r)) (fun j i => zv (m_dim m') (a_xds r) j i / m_tau m') (m_dim m') x cs).
Proof. exact sample_costs. Qed.
Print Assumptions C74_samples.
(** they do not depend on the samples evaluated before *)
Theorem C74_history : forall predict_fn (frame : bool) s k hs x, wf predict_fn (o_dmp s) -> selectable_dmp (pdmp_of (o_dmp s)) ->
  snd (cost_of_sample predict_fn (rollouts predict_fn s hs) frame k x) = snd (cost_of_sample predict_fn s frame k x).
Proof. exact sample_history. Qed.
Print Assumptions C74_history.
(** the constructor: goals of another dimension are rejected; arguments that are given are kept, and the
    others get their default values *)
Definition given (arg : option R) (default v : R) : Prop := (forall r, arg = Some r -> v = r) /\ (arg = None -> v = default).
Theorem C74_constructor : forall via kw,
  match new_task via kw with
  | Ok k => k_via k = via /\ (forall g, k_goal k = Some g -> length g = length via) /\
            (kw_goal kw = None -> k_goal k = Some (repeat 0 (length via))) /\ (forall g, kw_goal kw = Some g -> k_goal k = g) /\
            k_time k = kw_time kw /\ k_goal_time k = kw_goal_time kw /\ given (kw_radius kw) 0 (k_radius k) /\
            given (kw_wv kw) 1 (k_wv k) /\ given (kw_wa kw) 0.0001 (k_wa k) /\ given (kw_wr kw) 0 (k_wr k) /\
            given (kw_wg kw) 0 (k_wg k)
  | Err e => e = ValueError /\ exists g, kw_goal kw = Some (Some g) /\ length g <> length via
  end.
Proof.
  intros via [t r g gt wv wa wr wg]. unfold new_task. cbn [kw_goal kw_time kw_radius kw_goal_time kw_wv kw_wa kw_wr kw_wg].
  assert (Gv : forall o d, given o d (opt o d)) by (intros [v|] d; split; cbn; congruence).
  destruct g as [[g|]|]; cbn [opt].
  - destruct (Nat.eqb_spec (length g) (length via)) as [E|E]; cbn [k_via k_goal k_time k_goal_time k_radius k_wv k_wa k_wr k_wg].
    + split; [reflexivity|]. split; [intros h Eh; congruence|]. split; [discriminate|]. split; [congruence|]. auto 8.
    + split; [reflexivity|]. now exists g.
  - cbn [k_via k_goal k_time k_goal_time k_radius k_wv k_wa k_wr k_wg].
    split; [reflexivity|]. split; [discriminate|]. split; [discriminate|]. split; [congruence|]. auto 8.
  - rewrite repeat_length, Nat.eqb_refl. cbn [k_via k_goal k_time k_goal_time k_radius k_wv k_wa k_wr k_wg]. split; [reflexivity|].
    split; [intros g E; injection E as <-; apply repeat_length|]. split; [reflexivity|]. split; [congruence|]. auto 8.
Qed.
Print Assumptions C74_constructor.
Example C74_case : consistent ex_t /\ tj_dim ex_t = length (k_via (ex_k 1)) /\ tj_ts ex_t <> [] /\ goal_ready (ex_k 1) (tj_ts ex_t) /\
  uses_goal (ex_k 1) /\ (exists kw, new_task [2] kw = Ok (ex_k 1)) /\
  (exists m, new_dmp Ijspeert 2 [5] [7] (Some [ex_fa]) no_kw = Ok m /\ wf ex_pf m /\ m_dim m = length (k_via (ex_k 1))).
Proof.
  split; [exact ex_t_ok|]. split; [reflexivity|]. split; [discriminate|]. split; [exact ex_k_ready|]. split; [split; [cbn; lra|discriminate]|].
  split; [eexists; exact ex_k_task|exact ex_wf].
Qed.

(** ** C89. The arm: every row of link positions starts at the origin, consecutive joints have the
    distance given by the link length, the direction of a link is the sum of the joint angles up to it,
    and the task evaluates the position of the end of the arm. *)
Theorem C89_links : forall n d angles lens, samples n d angles -> length lens = d ->
  exists P, angles_to_link_positions angles lens = Ok P /\ samples n (2 * (d + 1)) P /\
  forall r k, (r < n)%nat -> (k <= d)%nat ->
    at2 P r (2 * k) = joint_x (at2 angles r) (point lens) k /\ at2 P r (2 * k + 1) = joint_y (at2 angles r) (point lens) k.
Proof. exact links_positions. Qed.
Print Assumptions C89_links.
Theorem C89_rigid : forall n d angles lens P r k, samples n d angles -> length lens = d -> angles_to_link_positions angles lens = Ok P ->
  (r < n)%nat -> (k < d)%nat ->
  (at2 P r (2 * S k) - at2 P r (2 * k)) ^ 2 + (at2 P r (2 * S k + 1) - at2 P r (2 * k + 1)) ^ 2 = nth k lens 0 ^ 2 /\
  at2 P r 0 = 0 /\ at2 P r 1 = 0.
Proof.
  intros n d angles lens P r k Ha Hl E Hr Hk. destruct (links_positions n d angles lens Ha Hl) as (P' & E' & _ & X). assert (P' = P) by congruence. subst P'.
  destruct (X r (S k) Hr ltac:(lia)) as (-> & ->). destruct (X r k Hr ltac:(lia)) as (-> & ->). destruct (X r 0%nat Hr ltac:(lia)) as (X0 & X1).
  split; [apply (link_length (at2 angles r) (point lens) k)|]. split; [exact X0|exact X1].
Qed.
Print Assumptions C89_rigid.
(** the end of the arm is at most the sum of the link lengths away from the origin *)
Theorem C89_reach : forall n d angles lens P r, samples n d angles -> length lens = d -> angles_to_link_positions angles lens = Ok P ->
  (r < n)%nat -> sqrt (at2 P r (2 * d) ^ 2 + at2 P r (2 * d + 1) ^ 2) <= rsum (map Rabs lens).
Proof.
  intros n d angles lens P r Ha Hl E Hr. destruct (links_positions n d angles lens Ha Hl) as (P' & E' & _ & X). assert (P' = P) by congruence. subst P'.
  destruct (X r d Hr (le_n _)) as (-> & ->). eapply Rle_trans; [apply reach_bound|]. right.
  rewrite rsum_nth, map_length, Hl. apply sumn_ext. intros i Hi. unfold point. symmetry. apply (nth_map_lt Rabs lens i 0 0). lia.
Qed.
Print Assumptions C89_reach.
Theorem C89_costs : forall k t lens x, consistent t -> tj_misc t = None -> (0 < tj_dim t)%nat -> length lens = tj_dim t ->
  tj_ts t <> [] -> length (k_via k) = 2%nat -> goal_ready k (tj_ts t) ->
  exists M cs, arm_cost_vars t lens = Ok M /\ arm_evaluate k (tj_dim t) M x = Ok cs /\
    costs_are k (tj_ts t) (fun r => arm_end (tj_dim t) (at2 (tj_ys t) r) (point lens)) (at2 (tj_ydds t)) (tj_dim t) x cs.
Proof. exact arm_costs. Qed.
Print Assumptions C89_costs.
(** a via-point out of reach has costs, whatever the rollout *)
Theorem C89_unreachable : forall k t lens x M cs, consistent t -> tj_misc t = None -> (0 < tj_dim t)%nat -> length lens = tj_dim t ->
  tj_ts t <> [] -> length (k_via k) = 2%nat -> goal_ready k (tj_ts t) -> 0 < k_wv k ->
  arm_cost_vars t lens = Ok M -> arm_evaluate k (tj_dim t) M x = Ok cs ->
  k_wv k * (dist 2 (point (k_via k)) (fun _ => 0) - rsum (map Rabs lens) - Rmax 0 (k_radius k)) <= nth 1 cs 0.
Proof. exact arm_unreachable. Qed.
Print Assumptions C89_unreachable.
(** link lengths of the solver: as many as dimensions, they sum to 1. Partial: they should be the
    given ones, and these only if none are given *)
Theorem C89_lengths_partial : forall given d l, arm_lengths given d = Ok l ->
  length l = d /\ rsum l = 1 /\ forall x, In x l -> x = 1 / INR d.
Proof.
  intros given d l E. unfold arm_lengths in E. destruct given; [|discriminate]. destruct (Nat.eqb_spec d 0); [discriminate|]. assert (l = repeat (1 / INR d) d) by congruence. subst l.
  split; [apply repeat_length|]. split; [|intros x H; now apply repeat_spec in H].
  assert (0 < INR d) by (apply lt_0_INR; lia). assert (S : forall n c, rsum (repeat c n) = INR n * c). { intros n0 c. induction n0 as [|n0 IH]; [cbn; ring|]. cbn [repeat]. change (rsum (c :: repeat c n0)) with (c + rsum (repeat c n0)). rewrite IH, S_INR. ring. }
  rewrite S. field. lra.
Qed.
Print Assumptions C89_lengths_partial.
Theorem C89_given_lengths_refuted : exists given d l, length given = d /\ arm_lengths (Some given) d = Ok l /\ l <> given.
Proof. exists [3; 4], 2%nat, [1 / INR 2; 1 / INR 2]. split; [reflexivity|]. split; [reflexivity|]. intros H. injection H as H _. cbn in H. lra. Qed.
Print Assumptions C89_given_lengths_refuted.
Theorem C89_default_lengths_refuted : forall d, arm_lengths None d = Err TypeError.
Proof. reflexivity. Qed.
Print Assumptions C89_default_lengths_refuted.
Example C89_case : consistent ex_arm /\ tj_misc ex_arm = None /\ tj_dim ex_arm = 2%nat /\ length [1/2; 1/2] = 2%nat /\
  length (k_via ex_arm_k) = 2%nat /\ goal_ready ex_arm_k (tj_ts ex_arm) /\ 0 < k_wv ex_arm_k /\
  arm_lengths (Some []) 2 = Ok [1 / INR 2; 1 / INR 2] /\
  1 < dist 2 (point (k_via ex_arm_k)) (fun _ => 0).
Proof.
  split; [exact ex_arm_ok|]. do 4 (split; [reflexivity|]). split; [exact ex_arm_ready|]. split; [cbn; lra|]. split; [reflexivity|].
  unfold dist. cbn. replace (0 + (3 - 0) * ((3 - 0) * 1) + (0 - 0) * ((0 - 0) * 1)) with (3 * 3) by ring. rewrite sqrt_square; lra.
Qed.

(** ** C90. The task with gains. Full statement: the costs are the weighted distance to the via-point
    at its time, the weighted mean absolute acceleration, and a cost of the gains between 0 (all gains
    minimal) and the weight (all gains maximal); the first cost is the sum. *)
Theorem C90_costs : forall k n c m, let d := length (g_via k) in samples n c m -> (1 + 4 * d <= c)%nat -> (0 < n)%nat -> g_max k <> 0 ->
  exists w cs, gains_evaluate k m = Ok cs /\ length cs = (1 + length gain_labels)%nat /\
  nth 0 cs 0 = nth 1 cs 0 + nth 2 cs 0 + nth 3 cs 0 /\
  counts d (point (g_via k)) (Some (g_time k)) (map (fun i => at2 m i 0) (seq 0 n)) (fun i j => at2 m i (1 + j)) w /\
  nth 1 cs 0 = g_wv k * dist d (fun j => at2 m w (1 + j)) (point (g_via k)) /\
  nth 2 cs 0 = g_wa k * sumn n (fun i => sumn d (fun j => Rabs (at2 m i (1 + 2 * d + j)))) / INR n /\
  nth 3 cs 0 = g_wg k * ((sumn n (fun i => sumn d (fun j => at2 m i (1 + 3 * d + j))) - g_min k) / (INR n * g_max k)).
Proof. exact gains_costs. Qed.
Print Assumptions C90_costs.
Theorem C90_bounds_partial : forall k n c m cs, let d := length (g_via k) in samples n c m -> (1 + 4 * d <= c)%nat -> (0 < n)%nat -> (0 < d)%nat ->
  0 <= g_min k -> 0 < g_max k -> 0 <= g_wg k ->
  (forall i j, (i < n)%nat -> (j < d)%nat -> g_min k <= at2 m i (1 + 3 * d + j) <= g_max k) ->
  gains_evaluate k m = Ok cs -> 0 <= nth 3 cs 0 <= g_wg k * INR d.
Proof. exact gains_bounds. Qed.
Print Assumptions C90_bounds_partial.
(** minimal gains at all times: the minimum is subtracted once from the sum, not once per time step *)
Theorem C90_minimal : forall k n c m cs, let d := length (g_via k) in samples n c m -> (1 + 4 * d <= c)%nat -> (0 < n)%nat -> 0 < g_max k ->
  (forall i j, (i < n)%nat -> (j < d)%nat -> at2 m i (1 + 3 * d + j) = g_min k) -> gains_evaluate k m = Ok cs ->
  nth 3 cs 0 = g_wg k * (g_min k * (INR n * INR d - 1) / (INR n * g_max k)).
Proof. exact gains_minimal. Qed.
Print Assumptions C90_minimal.
Theorem C90_minimal_refuted : exists k n c m cs, let d := length (g_via k) in samples n c m /\ (1 + 4 * d <= c)%nat /\ (0 < n)%nat /\ 0 < g_max k /\
  (forall i j, (i < n)%nat -> (j < d)%nat -> at2 m i (1 + 3 * d + j) = g_min k) /\ gains_evaluate k m = Ok cs /\ 0 < nth 3 cs 0.
Proof.
  destruct gains_not_free as (cs & E & H). exists ex_gk, 2%nat, 8%nat, ex_gm, cs. split; [exact ex_gm_ok|]. split; [cbn; lia|]. split; [lia|]. split; [cbn; lra|].
  split; [|split; [exact E|exact H]]. intros [|[|i]] [|j] Hi Hj; cbn in *; try lia; reflexivity.
Qed.
Print Assumptions C90_minimal_refuted.
Example C90_case : samples 2 8 ex_gm /\ (1 + 4 * length (g_via ex_gk) <= 8)%nat /\ 0 <= g_min ex_gk /\ 0 < g_max ex_gk /\ 0 <= g_wg ex_gk /\
  (forall i j, (i < 2)%nat -> (j < length (g_via ex_gk))%nat -> g_min ex_gk <= at2 ex_gm i (1 + 3 * length (g_via ex_gk) + j) <= g_max ex_gk).
Proof.
  split; [exact ex_gm_ok|]. split; [cbn; lia|]. split; [cbn; lra|]. split; [cbn; lra|]. split; [cbn; lra|].
  intros [|[|i]] [|j] Hi Hj; cbn in *; try lia; lra.
Qed.
