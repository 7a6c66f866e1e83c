(** C92-C94: DMPs with schedules. [pf] and [tf] are the predictions and the training of the function
    approximators of the movement, [sf] and [st] those of the schedules: any functions. *)
From Coq Require Import String.
From Verif Require Import Base BaseLemmas DynModel DynSpec DynProofs ParamModel ParamSpec TrajModel DmpModel DmpSpec DmpProofs DmpProofs5 DmpProofs7 DmpProofs9 DmpProofs10 DmpProofs13 DmpExamples SchedModel SchedSpec SchedProofs SchedProofs2 SchedProofs3 SchedProofs4 SchedExamples.
Open Scope R_scope.

(** ** C92 *)
(** the constructor builds the DMP as without schedules, and keeps the approximators and bounds given *)
Theorem C92_constructor : forall ty tau y0 attr fas scheds lo hi kw m, new_dmp ty tau y0 attr fas kw = Ok m ->
  usable (length scheds) lo -> usable (length scheds) hi ->
  exists w, new_wdmp ty tau y0 attr fas scheds lo hi kw = Ok w /\ w_dmp w = m /\ w_fas w = scheds /\ bounded_by w lo hi.
Proof. exact new_wdmp_ok. Qed.
Print Assumptions C92_constructor.
Theorem C92_schedules : forall pf sf w lo hi ts, wf pf (w_dmp w) -> sched_ready sf w -> bounded_by w lo hi -> ts <> [] ->
  exists r s, ana_sched pf sf w (Some ts) = Ok (r, In2 s) /\ ana pf (w_dmp w) ts false = Ok r /\
    nrows s = length ts /\ mcols s = length (w_fas w) /\ mat_wf s /\
    forall k i, (k < length ts)%nat -> (i < length (w_fas w))%nat -> exists ph,
      phase_at (w_dmp w) (nth k ts 0) ph /\ pv (m_dim (w_dmp w)) (a_xs r) k = ph /\
      mget s k i = limited lo hi i (sched_val sf w ph i).
Proof. exact ana_sched_ok. Qed.
Print Assumptions C92_schedules.
(** single time steps: the movement is that of the DMP, the schedules are those of the phase in the state *)
Theorem C92_start : forall pf sf w lo hi m' x xd, wf pf (w_dmp w) -> sched_ready sf w -> bounded_by w lo hi ->
  (lo = ANone /\ hi = ANone) \/ length (w_fas w) = 1%nat -> m_start pf (w_dmp w) None = Ok (m', x, xd) ->
  exists s, start_sched pf sf w None = Ok (upd_dmp w m', x, xd, s) /\
    step_values s = map (fun i => limited lo hi i (sched_val sf w (nth (3 * m_dim (w_dmp w)) x 0) i)) (seq 0 (length (w_fas w))).
Proof. exact start_sched_ok. Qed.
Print Assumptions C92_start.
Theorem C92_step : forall pf sf w lo hi dt x x' xd, wf pf (w_dmp w) -> sched_ready sf w -> bounded_by w lo hi ->
  (lo = ANone /\ hi = ANone) \/ length (w_fas w) = 1%nat ->
  step_rk (rate_of pf (w_dmp w)) (dim_x (w_dmp w)) dt x = Ok (x', xd) ->
  exists s, step_sched pf sf w dt x = Ok (x', xd, s) /\
    step_values s = map (fun i => limited lo hi i (sched_val sf w (nth (3 * m_dim (w_dmp w)) x' 0) i)) (seq 0 (length (w_fas w))).
Proof. exact step_sched_ok. Qed.
Print Assumptions C92_step.
(** the trajectory: positions, velocities and accelerations of the movement, the schedules next to them;
    refused if the numbers of rows differ *)
Theorem C92_trajectory : forall pf w ts r s, wf pf (w_dmp w) -> ana pf (w_dmp w) ts false = Ok r ->
  let n := m_dim (w_dmp w) in
  if Nat.eqb (nrows s) (length ts)
  then exists t, as_traj_sched w ts (a_xs r) (a_xds r) s = Ok t /\ tj_ts t = ts /\ tj_misc t = Some (V2 s) /\ demo n t /\
    forall k i, (k < length ts)%nat -> (i < n)%nat ->
      mget (tj_ys t) k i = yv (a_xs r) k i /\ mget (tj_yds t) k i = yv (a_xds r) k i /\
      mget (tj_ydds t) k i = zv n (a_xds r) k i / m_tau (w_dmp w)
  else as_traj_sched w ts (a_xs r) (a_xds r) s = Err ValueError.
Proof. exact as_traj_ok. Qed.
Print Assumptions C92_trajectory.
Example C92_constructor_case : exists m, new_dmp Ijspeert 2 [5] [7] (Some [ex_fa]) no_kw = Ok m /\
  usable (length [ex_fa; ex_fa]) ex_lo /\ usable (length [ex_fa; ex_fa]) ex_hi /\ ex_lo <> ex_hi.
Proof.
  destruct ex_new as (m & E & _). exists m. split; [exact E|].
  split; [right; left; exists [0; 3]; repeat split; discriminate|]. split; [right; left; exists [6; 10]; repeat split; discriminate|].
  intros H. injection H as H _. lra.
Qed.
Example C92_case : exists w, wf ex_pf (w_dmp w) /\ sched_ready ex_sf w /\ bounded_by w ex_lo ex_hi /\ length (w_fas w) = 2%nat.
Proof.
  destruct ex_train_s as (w & w' & _ & _ & _ & _ & _ & _ & _ & W & Sr & B & L & _). exists w'. now split; [|split; [|split]].
Qed.

(** ** C93 *)
(** start, goal and parameters of the movement can be set, and it can be simulated: same schedules at the
    same times *)
Theorem C93_phase_only : forall pf tf sf w lo hi cs m' ts ts', predicts pf tf -> wf pf (w_dmp w) ->
  allowed pf tf (w_dmp w) cs -> Forall same_clock cs -> apply_all pf tf (w_dmp w) cs = Ok m' ->
  sched_ready sf w -> bounded_by w lo hi -> ts <> [] -> ts' <> [] ->
  exists r s r' s', ana_sched pf sf w (Some ts) = Ok (r, In2 s) /\ ana_sched pf sf (upd_dmp w m') (Some ts') = Ok (r', In2 s') /\
    nrows s = length ts /\ nrows s' = length ts' /\ mcols s = length (w_fas w) /\ mcols s' = length (w_fas w) /\
    forall k k' i, (k < length ts)%nat -> (k' < length ts')%nat -> (i < length (w_fas w))%nat ->
      nth k ts 0 = nth k' ts' 0 -> mget s k i = mget s' k' i.
Proof. exact phase_only. Qed.
Print Assumptions C93_phase_only.
(** with the duration, schedules are scaled in time *)
Theorem C93_duration : forall pf sf w lo hi c m' ts, wf pf (w_dmp w) -> time_invariant (m_phase (w_dmp w)) -> 0 < c ->
  set_tau (w_dmp w) (c * m_tau (w_dmp w)) = Ok m' -> sched_ready sf w -> bounded_by w lo hi -> ts <> [] ->
  exists r s r' s', ana_sched pf sf w (Some ts) = Ok (r, In2 s) /\
    ana_sched pf sf (upd_dmp w m') (Some (map (Rmult c) ts)) = Ok (r', In2 s') /\
    nrows s = length ts /\ nrows s' = length ts /\ mcols s = length (w_fas w) /\ mcols s' = length (w_fas w) /\
    forall k i, (k < length ts)%nat -> (i < length (w_fas w))%nat -> mget s k i = mget s' k i.
Proof. exact time_scaled. Qed.
Print Assumptions C93_duration.
Example C93_case : exists w m' m'', predicts ex_pf ex_tf /\ wf ex_pf (w_dmp w) /\ allowed ex_pf ex_tf (w_dmp w) [XAttr [9]; XY0 [4]] /\
  Forall same_clock [XAttr [9]; XY0 [4]] /\ apply_all ex_pf ex_tf (w_dmp w) [XAttr [9]; XY0 [4]] = Ok m' /\
  sched_ready ex_sf w /\ bounded_by w ex_lo ex_hi /\ time_invariant (m_phase (w_dmp w)) /\ set_tau (w_dmp w) (2 * m_tau (w_dmp w)) = Ok m''.
Proof.
  destruct ex_new as (m & E & _ & _ & _ & Ed & _). destruct ex_wf as (m1 & E1 & W & _). assert (m1 = m) by congruence. subst m1.
  set (f := Fa [("weights"%string, PArr (Arr [2%nat] [1; 2]))] (Some 1%nat) None).
  destruct (set_tau_wf 2 ltac:(lra) ex_pf m W) as (m2 & Et & _).
  exists (Wdmp m [f; f] (SList [0; 3]) (SList [6; 10])). cbn [w_dmp]. cbn in E. injection E as E.
  eexists _, _. split; [exact ex_predicts|]. split; [exact W|].
  split; [rewrite <- E; split; [exact I|]; split; [right; exact I|exact I]|]. split; [repeat constructor|]. split; [rewrite <- E; reflexivity|].
  split. { intros i g Hi. destruct i as [|[|i]]; cbn in Hi; [..|destruct i; discriminate]; injection Hi as <-; (split; [reflexivity|]); intros ph; apply ex_sf_total. }
  split. { split; [right; left; exists [0; 3]; repeat split; discriminate|]. split; [right; left; exists [6; 10]; repeat split; discriminate|]. split; reflexivity. }
  split; [rewrite <- E; exact I|]. exact Et.
Qed.

(** ** C94 *)
(** training trains the movement as without schedules, and each schedule with the phases at the times of
    the demonstration and the schedule recorded there *)
Theorem C94_trained : forall pf tf st w t g w', predicts pf tf -> sound pf (w_dmp w) -> demo (m_dim (w_dmp w)) t -> last (tj_ts t) 0 <> 0 ->
  goal_accepts (w_dmp w) (nth 0 (mrows (tj_ys t)) []) -> train_sched pf tf st w t g = Ok w' ->
  m_train pf tf (w_dmp w) t = Ok (w_dmp w') /\ w_lo w' = w_lo w /\ w_hi w' = w_hi w /\ length (w_fas w') = length (w_fas w) /\
  exists s phs, sched_targets w t g = Ok s /\ mcols s = length (w_fas w) /\ length phs = length (tj_ts t) /\
    (forall k, (k < length (tj_ts t))%nat -> phase_at (w_dmp w') (nth k (tj_ts t) 0) (nth k phs 0)) /\
    forall i f, nth_error (w_fas w) i = Some f -> exists ps, st i phs (col i (mrows s)) = Ok ps /\
      nth_error (w_fas w') i = Some (Fa ps (Some 1%nat) (f_sel f)).
Proof. exact train_sched_ok. Qed.
Print Assumptions C94_trained.
(** it succeeds if the movement can be trained, and there are as many schedules as function approximators *)
Theorem C94_succeeds : forall pf tf st w t s m', predicts pf tf -> sound pf (w_dmp w) -> demo (m_dim (w_dmp w)) t -> last (tj_ts t) 0 <> 0 ->
  goal_accepts (w_dmp w) (nth 0 (mrows (tj_ys t)) []) -> m_train pf tf (w_dmp w) t = Ok m' ->
  tj_misc t = Some (V2 s) -> mcols s = length (w_fas w) -> (forall i phs ys, exists ps, st i phs ys = Ok ps) ->
  exists w', train_sched pf tf st w t GNone = Ok w'.
Proof. exact train_sched_total. Qed.
Print Assumptions C94_succeeds.
(** the schedules of the demonstration are reproduced, within the bounds *)
Theorem C94_reproduced : forall pf tf sf st w t w' lo hi s, predicts pf tf -> sound pf (w_dmp w) -> demo (m_dim (w_dmp w)) t -> last (tj_ts t) 0 <> 0 ->
  goal_accepts (w_dmp w) (nth 0 (mrows (tj_ys t)) []) -> train_sched pf tf st w t GNone = Ok w' -> tj_misc t = Some (V2 s) ->
  schedules_predict sf st -> fits_schedules sf st (w_dmp w') (tj_ts t) s (length (w_fas w)) -> bounded_by w lo hi ->
  exists r s', ana_sched pf sf w' None = Ok (r, In2 s') /\ nrows s' = length (tj_ts t) /\ mcols s' = mcols s /\
    forall k i, (k < length (tj_ts t))%nat -> (i < length (w_fas w))%nat ->
      mget s' k i = limited lo hi i (mget s k i) /\ (in_bounds lo hi i (mget s k i) -> mget s' k i = mget s k i).
Proof. exact train_reproduces. Qed.
Print Assumptions C94_reproduced.
(** a DMP made from a demonstration moves like one without schedules *)
Theorem C94_from_traj : forall pf tf st ty t fas scheds lo hi kw g w,
  from_traj_sched pf tf st ty t fas scheds lo hi kw g = Ok w -> from_traj pf tf ty t fas kw = Ok (w_dmp w).
Proof. exact from_traj_movement. Qed.
Print Assumptions C94_from_traj.
Example C94_case : exists w w', predicts ex_pf ex_tf /\ sound ex_pf (w_dmp w) /\ demo (m_dim (w_dmp w)) ex_demo_s /\ last (tj_ts ex_demo_s) 0 <> 0 /\
  goal_accepts (w_dmp w) (nth 0 (mrows (tj_ys ex_demo_s)) []) /\ train_sched ex_pf ex_tf ex_st w ex_demo_s GNone = Ok w' /\
  tj_misc ex_demo_s = Some (V2 ex_scheds) /\ schedules_predict ex_sf ex_st /\
  fits_schedules ex_sf ex_st (w_dmp w') (tj_ts ex_demo_s) ex_scheds (length (w_fas w)) /\ bounded_by w ex_lo ex_hi /\
  limited ex_lo ex_hi 1 (mget ex_scheds 3 1) = 3 /\ in_bounds ex_lo ex_hi 0 (mget ex_scheds 2 0).
Proof.
  destruct ex_train_s as (w & w' & _ & S & Ed & Hg & Lf & B & E & _ & _ & _ & _ & _ & _ & Eph). exists w, w'.
  split; [exact ex_predicts|]. split; [exact S|]. split; [rewrite Ed; exact ex_is_demo_s|]. split; [cbn; lra|]. split; [exact Hg|].
  split; [exact E|]. split; [reflexivity|]. split; [intros i phs ys ps ph _; apply ex_sf_total|].
  split; [unfold fits_schedules; rewrite Lf; now apply ex_fit|]. split; [exact B|].
  split; [unfold limited, ex_lo, ex_hi, ex_scheds; cbn; rewrite Rmax_left, Rmin_right by lra; lra|].
  split; cbn; intros v H; injection H as <-; lra.
Qed.
(** schedules cannot be given as an argument: an array with at least two numbers raises an error, whatever
    the demonstration, the DMP and the function approximators, and so does a list; a single 0 is ignored *)
Theorem C94_argument_refuted : forall pf tf st w t,
  (forall a w', (2 <= length (nd_data a))%nat -> train_sched pf tf st w t (GArr a) <> Ok w') /\
  (forall r l w', train_sched pf tf st w t (GList (r :: l)) <> Ok w') /\
  (forall a w', (2 <= length (nd_data a))%nat -> train_sched pf tf st w t GNone = Ok w' -> train_sched pf tf st w t (GArr a) = Err ValueError) /\
  (forall a, nd_data a = [0] -> train_sched pf tf st w t (GArr a) = train_sched pf tf st w t GNone).
Proof.
  intros. split; [intros a w' H; now apply explicit_fails|]. split; [intros; apply list_fails|].
  split; [intros a w' H E; now apply (explicit_error pf tf st w t a w')|]. intros a. apply zero_ignored.
Qed.
Print Assumptions C94_argument_refuted.
Example C94_argument_case : exists w w', train_sched ex_pf ex_tf ex_st w ex_demo_s GNone = Ok w' /\
  (2 <= length (nd_data (V2 ex_scheds)))%nat /\ mcols ex_scheds = length (w_fas w).
Proof.
  destruct ex_train_s as (w & w' & _ & S & Ed & Hg & Lf & B & E & _). exists w, w'. split; [exact E|]. split; [cbn; lia|now rewrite Lf].
Qed.
