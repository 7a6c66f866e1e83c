(** C107: learning a via-point with a DMP: rollouts depend linearly on the weights, costs are convex, and so every evaluation of
    the mean costs at most as much as the samples of the update before did on average. *)
From Coq Require Import String.
From Verif Require Import Base BaseLemmas DynModel SessionModel SessionSpec UpdatersModel UpdatersSpec UpdatersProofs UpdatersProofs3 UpdatersProofs4 UpdatersProofs5 UpdatersExamples
  LoopModel LoopSpec LoopExamples EquivSpec EquivExamples ParamModel ParamSpec ParamProofs TrajModel TrajSpec DmpModel DmpSpec DmpExamples FaModel CppModel CppSpec CppExamples
  TaskModel TaskSpec OptSpec OptProofs2 OptProofs3 CppProofs5 CppProofs7 CppProofs8 ExploreSpec ExploreProofs2 ViaSpec ViaProofs ViaProofs2 ViaProofs3 ViaProofs4 ViaProofs5 ViaExamples.
Open Scope string_scope.
Open Scope R_scope.

(** The rollout for a mix of two parameter vectors is the mix of their rollouts: positions, velocities and accelerations at all times. *)
Theorem C107_rollout : forall ex kinds s x y t, let pf := py_predict ex kinds in
  wf pf (o_dmp s) -> selectable_dmp (pdmp_of (o_dmp s)) -> linear_params kinds (o_dmp s) -> goal_apart (o_dmp s) ->
  (1 <= o_n s)%Z -> dmp_size (pdmp_of (o_dmp s)) = Ok (length x) -> dmp_size (pdmp_of (o_dmp s)) = Ok (length y) ->
  exists rx ry rz, snd (rollout pf s x) = Ok rx /\ snd (rollout pf s y) = Ok ry /\ snd (rollout pf s (between t x y)) = Ok rz /\
    length rx = Z.to_nat (o_n s) /\ length ry = Z.to_nat (o_n s) /\ length rz = Z.to_nat (o_n s) /\
    forall i tx px vx ax ty py vy ay tz pz vz az,
      nth_error rx i = Some (tx, (px, vx, ax)) -> nth_error ry i = Some (ty, (py, vy, ay)) -> nth_error rz i = Some (tz, (pz, vz, az)) ->
      tx = tz /\ ty = tz /\ pz = between t px py /\ vz = between t vx vy /\ az = between t ax ay.
Proof. intros ex kinds s x y t pf. apply rollout_between. Qed.
Print Assumptions C107_rollout.
Example C107_rollout_case : let s := v_solver [] NoScaling 3 7 in
  wf v_pf (o_dmp s) /\ selectable_dmp (pdmp_of (o_dmp s)) /\ linear_params v_kinds (o_dmp s) /\ goal_apart (o_dmp s) /\ dmp_size (pdmp_of (o_dmp s)) = Ok 1%nat.
Proof. split; [apply v_wf; discriminate|]. split; [apply v_selectable|]. split; [apply v_linear|]. split; [intros []|reflexivity]. Qed.

(** Every cost component, and the total, of a mix is at most the mix of the costs. *)
Theorem C107_components : forall ex kinds frame s k N x y t, let pf := py_predict ex kinds in
  via_setting ex kinds s k N -> length x = N -> length y = N -> 0 <= t <= 1 ->
  exists cx cy cz, snd (cost_of_sample pf s frame k x) = Ok cx /\ snd (cost_of_sample pf s frame k y) = Ok cy /\ snd (cost_of_sample pf s frame k (between t x y)) = Ok cz /\
    length cx = 5%nat /\ length cy = 5%nat /\ length cz = 5%nat /\ forall j, (j < 5)%nat -> nth j cz 0 <= t * nth j cx 0 + (1 - t) * nth j cy 0.
Proof.
  intros ex kinds frame s k N x y t pf (W & Hs & Hl & Ha & HN & Hn & Hd & Hp & Ht & ts & Ets & Hg) Lx Ly Hm.
  apply (cost_convex ex kinds frame s k ts); trivial; congruence.
Qed.
Print Assumptions C107_components.
Theorem C107_convex : forall ex kinds frame s k N, via_setting ex kinds s k N -> convex N (total_cost (py_predict ex kinds) s frame k).
Proof.
  intros ex kinds frame s k N (W & Hs & Hl & Ha & HN & Hn & Hd & Hp & Ht & ts & Ets & Hg). apply (total_convex ex kinds frame s k ts); trivial.
Qed.
Print Assumptions C107_convex.
Lemma v_setting : via_setting exp v_kinds (v_solver ["goal"] NoScaling 3 7) (v_task (Some 1)) 2.
Proof.
  split; [apply v_wf; discriminate|]. split; [apply v_selectable|]. split; [apply v_linear|]. split; [intros _; split; [discriminate|reflexivity]|].
  split; [reflexivity|]. split; [cbn; lia|]. split; [reflexivity|]. split; [cbn; lia|]. split; [left; discriminate|]. eexists. split; [exact v_times|apply v_ready].
Qed.
Example C107_convex_case : via_setting exp v_kinds (v_solver ["goal"] NoScaling 3 7) (v_task (Some 1)) 2.
Proof. exact v_setting. Qed.
(** DMPs trained with a demonstration are such DMPs, with any selection of weights (RBFN), slopes and offsets (LWR) and the goal. *)
Theorem C107_trained : forall kinds ns h lam ty t fas sel, (forall i, kinds i <> KOther) -> (forall i, (0 < ns i)%nat) -> (forall i, 0 < h i < 1) -> (forall i, 0 < lam i) ->
  ty = Kulvicius \/ ty = Countdown ->
  demo (tj_dim t) t -> 0 < last (tj_ts t) 0 -> hd 0 (tj_ts t) < last (tj_ts t) 0 -> (tj_dim t <= length fas)%nat -> Forall (fun f => is_trained f = false) fas ->
  NoDup (name_list sel) ->
  (forall i x, (i < tj_dim t)%nat -> In x (name_list sel) -> x = "goal" \/ (kinds i = KRbfn /\ x = "weights") \/ (kinds i = KLwr /\ (x = "slopes" \/ x = "offsets"))) ->
  exists m, from_traj (py_predict exp kinds) (trainer kinds ns h lam) ty t (Some fas) no_kw = Ok m /\
  forall k T n, (1 <= n)%Z -> tj_dim t = length (k_via k) -> (0 < tj_dim t)%nat -> timed k ->
    (exists ts, linspace0 T n = Ok ts /\ goal_ready k ts) -> exists N, via_setting exp kinds (Solver (m_select m sel) T n) k N.
Proof.
  intros kinds ns h lam ty t fas sel Hk Hn Hh Hl Hty D L1 L2 Lf Hu Nd Hsel.
  assert (P : plain_kw no_kw) by (do 5 (split; [reflexivity|]); now exists 20).
  destruct (from_traj_ok kinds ns h lam Hk Hn Hh Hl ty t fas no_kw Hty P eq_refl D L1 L2 Lf Hu) as [m E].
  assert (G : good exp kinds (tj_dim t) m).
  { apply (trained_good kinds ns h lam Hn Hh) with (ty := ty) (fas := fas) (kw := no_kw); trivial; intros; now apply Rlt_le. }
  exists m. split; [exact E|]. intros k T n Hn1 Hd Hp Ht Hg.
  destruct (select_good exp kinds (tj_dim t) m sel G) as ((W & Po & _ & _ & Ed) & Hs & Ex); trivial.
  { intros fs i f. now apply (from_traj_extras _ _ _ _ _ _ _ E Hu). }
  { intros i x Hi Hx. destruct (Hsel i x Hi Hx) as [H|[(Ek & ->)|(Ek & [-> | ->])]]; [now left|right; rewrite Ek; cbn; tauto..]. }
  destruct (dmp_get_size _ Hs) as (v & _ & Sz). exists (length v).
  split; [exact W|]. split; [exact Hs|]. split; [|split; [|split; [exact Sz|split; [exact Hn1|split; [cbn [o_dmp]; congruence|split; [cbn [o_dmp]; rewrite Ed; exact Hp|split; [exact Ht|exact Hg]]]]]]].
  - intros fs Ef i f Hf Tr. destruct (Ex fs Ef i f Hf Tr) as [Hi Hinc]. split; [|exact Hinc].
    destruct Po as (_ & _ & _ & _ & _ & _ & _ & _ & _ & _ & _ & fs' & Ef' & _ & Hp'). cbn [o_dmp] in Ef. rewrite Ef in Ef'. injection Ef' as <-. now apply (Hp' i f).
  - intros _. cbn [o_dmp]. split.
    + change (m_scaling m <> GMinusY0). rewrite (from_traj_scaling _ _ _ _ _ _ _ E). discriminate.
    + intros Hg0. exfalso. destruct Po as (_ & _ & _ & (y0 & _ & _ & _ & t0 & a & al & Eg & _) & _). rewrite Hg0 in Eg. discriminate.
Qed.
Print Assumptions C107_trained.
Example C107_trained_case : demo (tj_dim ex_demo) ex_demo /\ 0 < last (tj_ts ex_demo) 0 /\ hd 0 (tj_ts ex_demo) < last (tj_ts ex_demo) 0 /\ (tj_dim ex_demo <= length [new_fa []])%nat /\
  Forall (fun f => is_trained f = false) [new_fa []] /\ NoDup (name_list (NList ["weights"; "goal"])) /\ tj_dim ex_demo = length (k_via (v_task (Some 1))).
Proof. split; [exact ex_is_demo|]. split; [cbn; lra|]. split; [cbn; lra|]. split; [cbn; lia|]. split; [repeat constructor|]. split; [|reflexivity]. repeat constructor; cbn; intuition discriminate. Qed.

(** Without a time for the via-point the nearest point of the rollout counts, and the cost is not convex. *)
Theorem C107_untimed_refuted : exists s k N, (forall frame, ~ convex N (total_cost (py_predict exp v_kinds) s frame k)) /\
  k_time k = None /\ via_setting exp v_kinds s (Task (k_via k) (Some 1) (k_radius k) (k_goal k) (k_goal_time k) (k_wv k) (k_wa k) (k_wr k) (k_wg k)) N.
Proof.
  exists (v_solver [] NoScaling 3 7), (v_task None), 1%nat. split; [|split; [reflexivity|]].
  - intros frame C. specialize (C [4] [12] (1 / 2) eq_refl eq_refl ltac:(lra)).
    rewrite (v_untimed frame [] NoScaling 3 7 [4] 4 7 ltac:(discriminate) eq_refl) in C. rewrite (v_untimed frame [] NoScaling 3 7 [12] 12 7 ltac:(discriminate) eq_refl) in C.
    rewrite (v_untimed frame [] NoScaling 3 7 (between (1 / 2) [4] [12]) (1 / 2 * 4 + (1 - 1 / 2) * 12) 7 ltac:(discriminate) eq_refl) in C. unfold v_end in C.
    replace (4 * 1 / 4 - 1) with 0 in C by lra. replace (12 * 1 / 4 - 1) with 2 in C by lra. replace ((1 / 2 * 4 + (1 - 1 / 2) * 12) * 1 / 4 - 1) with 1 in C by lra.
    rewrite Rabs_R0, Rabs_R1, (Rabs_pos_eq 2) in C by lra. unfold Rmin in C. repeat destruct (Rle_dec _ _); lra.
  - split; [apply v_wf; discriminate|]. split; [apply v_selectable|]. split; [apply v_linear|]. split; [intros []|]. split; [reflexivity|]. split; [cbn; lia|]. split; [reflexivity|].
    split; [cbn; lia|]. split; [left; discriminate|]. eexists. split; [exact v_times|apply (v_ready (Some 1))].
Qed.
Print Assumptions C107_untimed_refuted.
(** If the forcing term is scaled with the goal, and both are learned, an update can move from two samples without costs to a mean
    with costs. *)
Theorem C107_goal_refuted : exists s k samples, forall frame argsort h d, argsort_ok argsort -> 0 <= h ->
  let f := total_cost (py_predict exp v_kinds) s frame k in
  map f (mrows samples) = [0; 0] /\
  exists d' w, update_distribution argsort (UMean "PI-BB" (EReal h)) d samples (map (fun x => CVec [f x]) (mrows samples)) = Ok (d', w) /\ f (d_mean d') = 9 / 16.
Proof.
  exists (v_solver ["goal"] GMinusY0 3 7), (v_task (Some 1)), (Mat 2 [[4; 1]; [1; 4]]). intros frame argsort h d Ha Hh f. cbn [mrows map].
  assert (V : forall a b, f [a; b] = Rabs (a * b / 4 - 1)).
  { intros a b. unfold f. rewrite (v_timed frame ["goal"] GMinusY0 3 7 [a; b] a b ltac:(discriminate) eq_refl). reflexivity. }
  assert (Z1 : f [4; 1] = 0) by (rewrite V; replace (4 * 1 / 4 - 1) with 0 by lra; apply Rabs_R0).
  assert (Z2 : f [1; 4] = 0) by (rewrite V; replace (1 * 4 / 4 - 1) with 0 by lra; apply Rabs_R0).
  rewrite Z1, Z2. split; [reflexivity|].
  destruct (update_mean_decay_ok argsort Ha (UMean "PI-BB" (EReal h)) d (Mat 2 [[4; 1]; [1; 4]]) [CVec [0]; CVec [0]]) as (d' & w & E).
  1,2: discriminate. 1: intros [H|[H|[]]]; discriminate. 1: split; discriminate. 1: reflexivity.
  exists d', w. split; [exact E|]. destruct (update_mean_formula argsort Ha _ _ _ _ _ _ E) as ((Lw & _ & Sw) & _ & Lm & F). destruct (update_inv _ _ _ _ _ _ _ E) as (Cw & _).
  cbn [u_method u_elit] in Cw. change (nrows (Mat 2 [[4; 1]; [1; 4]])) with 2%nat in *. cbn [mcols] in *.
  assert (Q : nth 1 w 0 = nth 0 w 0).
  { destruct (pibb_monotone argsort [CVec [0]; CVec [0]] [0; 0] "PI-BB" (EReal h) w 0 1) as (_ & Q & _); [..|now apply Q]; trivial; try (cbn; lia); try exact Hh.
    - intros [H|H]; discriminate.
    - constructor; [right; now exists []|constructor; [right; now exists []|constructor]]. }
  destruct w as [|a [|b [|]]]; try discriminate. cbn in Q, Sw. assert (a = 1 / 2) by lra. assert (b = 1 / 2) by lra. subst.
  destruct (d_mean d') as [|p [|q [|]]]; try discriminate. pose proof (F 0%nat ltac:(lia)) as F0. pose proof (F 1%nat ltac:(lia)) as F1. unfold sumn, mget in F0, F1. cbn in F0, F1.
  rewrite V. replace p with (5 / 2) by lra. replace q with (5 / 2) by lra. replace (5 / 2 * (5 / 2) / 4 - 1) with (9 / 16) by lra. apply Rabs_pos_eq. lra.
Qed.
Print Assumptions C107_goal_refuted.

(** Optimization: every mean is evaluated with its cost, and the cost of the next mean is at most the mean of the samples' costs. *)
Theorem C107_run : forall ex kinds frame argsort P G category load rng u s k N n w0 r tk solver up d0 j (st0 st1 : st cost_vars P (G * DmpModel.solver)) d',
  let pf := py_predict ex kinds in
  argsort_ok argsort -> sized rng -> prefers_low (u_method u) (u_elit u) -> via_setting ex kinds s k N -> length (d_mean d0) = N ->
  snd (st_out st0) = s -> st_trace st0 = [] ->
  run_optimization_task cost_vars P (G * DmpModel.solver) category (via_oracles rng argsort u pf frame k) w0 r tk solver up d0 j n st0 = (st1, Ok d') ->
  exists ts, length ts = j /\ chained t_before t_after d0 ts d' /\
    (forall i t, nth_error ts i = Some t -> task_stored load (st_db st1) i t) /\
    (forall t, In t ts -> has_total (u_mean_cost (t_upd t)) (total_cost pf s frame k (d_mean (t_before t))) /\ improves (total_cost pf s frame k) (t_upd t)).
Proof.
  intros ex kinds frame argsort P G category load rng u s k N n w0 r tk solver up d0 j st0 st1 d' pf Ha Hz Pl (W & Hs & Hl & Hga & HN & Hn & Hd & Hp & Ht & ts & Ets & Hg) L Eo T E.
  apply (via_run ex kinds frame argsort P G category load rng u s k ts N n w0 r tk solver up d0 j st0 st1 d'); trivial.
Qed.
Print Assumptions C107_run.
(** It succeeds with the updaters that do not adapt the covariance, if the random generator does, with or without bounds. *)
Theorem C107_succeeds : forall ex kinds frame argsort P G category rng u s k N n w0 r tk solver up d0 j (st0 : st cost_vars P (G * DmpModel.solver)),
  argsort_ok argsort -> sized rng -> (forall s mean C, exists s' m, rng s mean C n = (s', Ok m) /\ nrows m = Z.to_nat n) -> (1 <= n)%Z ->
  (forall a, u <> UAdapt a) -> admissible (u_method u) (u_elit u) (Z.to_nat n) -> via_setting ex kinds s k N -> length (d_mean d0) = N -> usable_bounds (d_bounds d0) N ->
  snd (st_out st0) = s ->
  exists st1 d', run_optimization_task cost_vars P (G * DmpModel.solver) category (via_oracles rng argsort u (py_predict ex kinds) frame k) w0 r tk solver up d0 j n st0 = (st1, Ok d').
Proof.
  intros ex kinds frame argsort P G category rng u s k N n w0 r tk solver up d0 j st0 Ha Hz Hr Hn0 Hu Had (W & Hs & Hl & Hga & HN & Hn & Hd & Hp & Ht & ts & Ets & Hg) L B Eo.
  apply (via_succeeds ex kinds frame argsort P G category rng u s k ts N n w0 r tk solver up d0 j st0); trivial.
Qed.
Print Assumptions C107_succeeds.
(** What the session directory shows afterwards: the evaluation of update i+1 costs at most the average of the samples of update i. *)
Theorem C107_evaluations : forall ex kinds frame argsort P G category load rng u s k N n w0 r tk solver up d0 j (st0 st1 : st cost_vars P (G * DmpModel.solver)) d',
  argsort_ok argsort -> sized rng -> prefers_low (u_method u) (u_elit u) -> via_setting ex kinds s k N -> length (d_mean d0) = N ->
  snd (st_out st0) = s -> st_trace st0 = [] ->
  run_optimization_task cost_vars P (G * DmpModel.solver) category (via_oracles rng argsort u (py_predict ex kinds) frame k) w0 r tk solver up d0 j n st0 = (st1, Ok d') ->
  forall i, (i + 1 < j)%nat -> exists costs rs c rc, stored load (st_db st1) "costs" i INone (OCosts costs) /\ totals costs rs /\
    stored load (st_db st1) "eval_cost" (i + 1) INone (OCost c) /\ has_total c rc /\ rc <= average rs.
Proof.
  intros ex kinds frame argsort P G category load rng u s k N n w0 r tk solver up d0 j st0 st1 d' Ha Hz Pl V L Eo T E i Hi.
  destruct (C107_run ex kinds frame argsort P G category load rng u s k N n w0 r tk solver up d0 j st0 st1 d' Ha Hz Pl V L Eo T E) as (us & Lk & Ch & St & Im).
  destruct (nth_error us i) as [a|] eqn:Ea; [|apply nth_error_None in Ea; lia].
  destruct (nth_error us (i + 1)) as [b|] eqn:Eb; [|apply nth_error_None in Eb; lia].
  destruct (Im a (nth_error_In _ _ Ea)) as (_ & Ta & Ia). destruct (Im b (nth_error_In _ _ Eb)) as (Hb & _).
  destruct (St i a Ea) as ((_ & _ & Sa & _) & _). destruct (St _ b Eb) as ((_ & _ & _ & _ & _ & _ & Sb) & _).
  rewrite Nat.add_1_r in Eb. rewrite (chained_next t_before t_after us d0 d' i a b Ch Ea Eb) in Hb.
  eexists _, _, _, _. split; [exact Sa|]. split; [exact Ta|]. split; [exact Sb|]. split; [exact Hb|]. unfold t_after. lra.
Qed.
Print Assumptions C107_evaluations.
(** one DMP with one offset, one task, one optimization *)
Example C107_run_case : let s := v_solver [] NoScaling 3 7 in let k := v_task (Some 1) in let u := UMean "PI-BB" (EReal 10) in
  let d0 := Dist [0] (Mat 1 [[1]]) None in let st0 : st cost_vars unit (nat * DmpModel.solver) := St (0%nat, s) [] (x_world, Sess 0 RNone [] None) in
  exists st1 d', run_optimization_task cost_vars unit (nat * DmpModel.solver) x_cat (via_oracles z_rng my_argsort u v_pf false k) x_world RNone (OObj 1) (OObj 2) (OObj 3) d0 4 20 st0 = (st1, Ok d') /\
    via_setting exp v_kinds s k 1 /\ sized z_rng /\ prefers_low (u_method u) (u_elit u) /\ length (d_mean d0) = 1%nat /\ snd (st_out st0) = s /\ st_trace st0 = [].
Proof.
  cbv zeta. assert (V : via_setting exp v_kinds (v_solver [] NoScaling 3 7) (v_task (Some 1)) 1).
  { split; [apply v_wf; discriminate|]. split; [apply v_selectable|]. split; [apply v_linear|]. split; [intros []|].
    split; [reflexivity|]. split; [cbn; lia|]. split; [reflexivity|]. split; [cbn; lia|]. split; [left; discriminate|]. eexists. split; [exact v_times|apply v_ready]. }
  destruct (C107_succeeds exp v_kinds false my_argsort unit nat x_cat z_rng (UMean "PI-BB" (EReal 10)) (v_solver [] NoScaling 3 7) (v_task (Some 1)) 1 20 x_world RNone (OObj 1) (OObj 2) (OObj 3)
    (Dist [0] (Mat 1 [[1]]) None) 4 (St (0%nat, v_solver [] NoScaling 3 7) [] (x_world, Sess 0 RNone [] None)) my_argsort_ok z_sized) as (st1 & d' & E); trivial.
  - intros s mean C. unfold z_rng. eexists _, _. split; [reflexivity|]. unfold nrows. cbn [mrows]. now rewrite map_length, seq_length.
  - lia.
  - discriminate.
  - split; discriminate.
  - exact I.
  - exists st1, d'. split; [exact E|]. split; [exact V|]. split; [exact z_sized|]. split; [right; cbn; lra|]. now repeat split.
Qed.
