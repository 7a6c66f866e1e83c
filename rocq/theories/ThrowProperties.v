(** C101, C102: the ball-throwing task of the robot demo, simulated in Python and in C++. *)
From Coq Require Import String SpecFloat.
From Verif Require Import Base DynModel DynSpec ParamModel FaModel TrajModel DmpModel DmpSpec IntModel CppModel CppTrajModel CppSpec CppProofs2 CppProofs5 CppProofs7 CppProofs8 CppExamples
  ThrowModel ThrowSpec ThrowProofs ThrowProofs2 ThrowProofs3 ThrowProofs4 ThrowExamples.
Open Scope R_scope.

(** ** C101: the simulations *)
(** Python, for any DMP and any height of the floor *)
Theorem C101_python : forall D start step sample (d : D) tau H y_floor, let n := ceil_nat (1.5 * tau / 0.01) in
  0 < tau -> (forall k, planar (H k)) -> moves D start step sample 0.01 d n H ->
  exists rows, py_simulation D start step sample tau y_floor d = Ok rows /\ length rows = n /\
    forall k, (k < n)%nat -> py_row y_floor 0.01 61 H n k (nth k rows []).
Proof.
  intros D start step sample d tau H y_floor n Ht HP HM. apply py_simulation_ok; trivial. apply ceil_floor. apply Rdiv_lt_0_compat; lra.
Qed.
Print Assumptions C101_python.
Example C101_python_case : 0 < 1 /\ (forall k : nat, planar rest) /\ moves unit still_start still_step still_sample 0.01 tt 150 (fun _ => rest).
Proof. split; [lra|]. split; [intros; apply rest_planar|apply still_moves]. Qed.

(** C++, robotExecuteDmp *)
Theorem C101_cpp : forall D start step sample (d : D) tau H, let n := floor_nat (1.5 * tau / 0.01) in
  (forall k, planar (H k)) -> moves D start step sample 0.01 d n H -> (forall k, (k <= n)%nat -> exists q, state_at D start step 0.01 d k = Ok q) ->
  exists rows, c_execute_dmp D start step sample tau d = Ok rows /\ length rows = n /\
    forall k, (k < n)%nat -> cpp_row 0.01 61 H k (nth k rows []).
Proof. intros D start step sample d tau H n HP HM HS. now apply execute_ok. Qed.
Print Assumptions C101_cpp.
Example C101_cpp_case : moves unit still_start still_step still_sample 0.01 tt 150 (fun _ => rest) /\ forall k, exists q, state_at unit still_start still_step 0.01 tt k = Ok q.
Proof. split; [apply still_moves|]. intros k. rewrite still_state. eauto. Qed.

(** C++, robotExecuteTrajectory, for samples at equal distances dt *)
Theorem C101_trajectory : forall dt r H t0 n c, 0 < dt -> released dt r -> (forall k, planar (H k)) -> (2 <= n)%nat ->
  ct_ts c = map (fun k => t0 + INR k * dt) (seq 0 n) ->
  (forall k, (k < n)%nat -> nth k (mrows (ct_ys c)) [] = h_y (H k) /\ nth k (mrows (ct_yds c)) [] = h_yd (H k) /\ nth k (mrows (ct_ydds c)) [] = h_ydd (H k)) ->
  exists rows, c_execute_trajectory c = Ok rows /\ length rows = n /\ forall k, (k < n)%nat -> cpp_row dt r H k (nth k rows []).
Proof. exact trajectory_ok. Qed.
Print Assumptions C101_trajectory.
Example C101_trajectory_case : released 0.4 2 /\ (forall k, planar (ex_move k)) /\ ct_ts ex_ctraj = map (fun k => 1 + INR k * 0.4) (seq 0 4) /\
  forall k, (k < 4)%nat -> nth k (mrows (ct_ys ex_ctraj)) [] = h_y (ex_move k) /\ nth k (mrows (ct_yds ex_ctraj)) [] = h_yd (ex_move k) /\ nth k (mrows (ct_ydds ex_ctraj)) [] = h_ydd (ex_move k).
Proof.
  split; [apply ex_released|]. split; [intros k; now repeat split|]. split.
  - cbn. repeat (apply f_equal2; [lra|]). reflexivity.
  - intros k Hk. do 4 (destruct k as [|k]; [repeat split; cbn; repeat (apply f_equal2; [lra|]); reflexivity|]). lia.
Qed.

(** the same throw in both languages: for every DMP that is read by C++ and describes a movement in the
    plane, the hand and the ball of all rows agree, and the accelerations except at the release. Missing: in
    floating point the ball is released one step earlier in C++, see C101_release_refuted. *)
Theorem C101_same_partial : forall ex kinds m, wf (py_predict ex kinds) m -> portable kinds m -> uniform m -> 0 < m_tau m -> m_dim m = 2%nat ->
  exists c rows rows', transfer kinds m = Ok c /\ run_python_simulation (py_predict ex kinds) (-0.3) m = Ok rows /\ robot_execute_dmp ex c = Ok rows' /\
    (length rows' <= length rows <= S (length rows'))%nat /\
    forall k, (k < length rows')%nat -> let row := nth k rows [] in let row' := nth k rows' [] in
      cols 1 4 row' = cols 1 4 row /\ cols 7 2 row' = cols 7 2 row /\ (k <> 61%nat -> cols 5 2 row' = cols 5 2 row).
Proof.
  intros ex kinds m W P U Ht D. destruct (agree ex kinds m (conj W (conj P (conj U (conj Ht D))))) as (rows & rows' & X). exists (img kinds m), rows, rows'. split; [now apply transfer_ok|exact X].
Qed.
Print Assumptions C101_same_partial.
Example C101_same_partial_case : exists m, wf (py_predict exp ex_kinds) m /\ portable ex_kinds m /\ uniform m /\ 0 < m_tau m /\ m_dim m = 2%nat.
Proof. destruct ex_throw_good as (m & _ & G). exists m. exact G. Qed.

(** in particular for those trained on a demonstrated throw *)
Theorem C101_trained_partial : forall kinds ns h lam ty t fas kw,
  (forall i, kinds i <> KOther) -> (forall i, (0 < ns i)%nat) -> (forall i, 0 < h i < 1) -> (forall i, 0 < lam i) ->
  ty = Kulvicius \/ ty = Countdown -> plain_kw kw -> opt (k_scaling kw) NoScaling = NoScaling ->
  demo 2 t -> 0 < last (tj_ts t) 0 -> hd 0 (tj_ts t) < last (tj_ts t) 0 ->
  (2 <= length fas)%nat -> Forall (fun f => is_trained f = false) fas ->
  exists m c rows rows', from_traj (py_predict exp kinds) (trainer kinds ns h lam) ty t (Some fas) kw = Ok m /\ transfer kinds m = Ok c /\
    run_python_simulation (py_predict exp kinds) (-0.3) m = Ok rows /\ robot_execute_dmp exp c = Ok rows' /\
    forall k, (k < length rows')%nat -> (k < length rows)%nat /\ cols 1 4 (nth k rows' []) = cols 1 4 (nth k rows []) /\ cols 7 2 (nth k rows' []) = cols 7 2 (nth k rows []).
Proof.
  intros kinds ns h lam ty t fas kw Hk Hn Hh Hl Hty K Ks D L1 L2 Lf Hu. pose proof D as (Ed & _).
  destruct (from_traj_ok kinds ns h lam Hk Hn Hh Hl ty t fas kw Hty K Ks) as [m E]; trivial; [now rewrite Ed..|].
  assert (G : good exp kinds 2 m). { rewrite <- Ed. apply (trained_good kinds ns h lam Hn Hh) with (ty := ty) (fas := fas) (kw := kw); trivial; [intros; now apply Rlt_le|now rewrite Ed..]. }
  destruct (agree exp kinds m G) as (rows & rows' & E1 & E2 & HL & HR). exists m, (img kinds m), rows, rows'. split; [exact E|]. split; [apply transfer_ok, G|]. split; [exact E1|]. split; [exact E2|].
  intros k Hlt. destruct (HR k Hlt) as (A & B & _). split; [lia|now split].
Qed.
Print Assumptions C101_trained_partial.
Example C101_trained_partial_case : demo 2 ex_throw /\ 0 < last (tj_ts ex_throw) 0 /\ hd 0 (tj_ts ex_throw) < last (tj_ts ex_throw) 0 /\ plain_kw no_kw.
Proof. split; [apply ex_throw_demo|]. split; [cbn; lra|]. split; [cbn; lra|]. do 5 (split; [reflexivity|]). now exists 20. Qed.

(** the accelerations of the hand do not survive: the one at the release is always overwritten by gravity in
    Python *)
Theorem C101_acceleration_refuted : forall D start step sample (d : D) tau H y_floor rows, let n := ceil_nat (1.5 * tau / 0.01) in
  0 < tau -> (forall k, planar (H k)) -> moves D start step sample 0.01 d n H -> (62 < n)%nat -> py_simulation D start step sample tau y_floor d = Ok rows ->
  cols 5 2 (nth 61 rows []) = [0; -9.81].
Proof.
  intros D start step sample d tau H y_floor rows n Ht HP HM Hn E. destruct (C101_python D start step sample d tau H y_floor Ht HP HM) as (rows' & E' & L & HR). fold n in L, HR.
  assert (rows' = rows) by congruence. subst rows'. destruct (HR 61%nat ltac:(lia)) as (_ & _ & _ & _ & A & _). rewrite A. replace (Nat.ltb 62 n) with true by (symmetry; apply Nat.ltb_lt; lia). reflexivity.
Qed.
Print Assumptions C101_acceleration_refuted.
Example C101_acceleration_refuted_case : (62 < ceil_nat (1.5 * 1 / 0.01))%nat /\ h_ydd rest = [0; 0].
Proof. rewrite ceil_150. split; [lia|reflexivity]. Qed.

(** in floating point: Python releases the ball at row 61, C++ at row 60 *)
Theorem C101_release_refuted :
  (forall k, (k < 61)%nat -> SFltb sf_release (py_time k) = false) /\ SFltb sf_release (py_time 61) = true /\
  (forall k, (k < 60)%nat -> SFltb sf_release (cpp_time k) = false) /\ SFltb sf_release (cpp_time 60) = true.
Proof.
  pose proof py_release as A. pose proof cpp_release as B. apply andb_prop in A, B. destruct A as (A1 & A2), B as (B1 & B2). rewrite forallb_forall in A1, B1.
  split; [|split; [exact A2|split; [|exact B2]]]; intros k Hk; apply negb_true_iff; [apply A1|apply B1]; apply in_seq; lia.
Qed.
Print Assumptions C101_release_refuted.

(** the floor of the task is ignored by C++: with a floor at -1, the ball of a hand at rest ends there in
    Python, and at -0.3 in C++ *)
Theorem C101_floor_refuted : exists D start step sample (d : D) rows rows', py_simulation D start step sample 1 (-1) d = Ok rows /\ c_execute_dmp D start step sample 1 d = Ok rows' /\
  length rows = 150%nat /\ length rows' = 150%nat /\ cols 7 2 (last rows []) = [0; -1] /\ cols 7 2 (last rows' []) = [0; -0.3].
Proof. exists unit, still_start, still_step, still_sample, tt. exact floors_differ. Qed.
Print Assumptions C101_floor_refuted.

(** ** C102: the costs *)
(** any rollout: costs[0] is the sum of the others, none is negative, and the landing cost is zero exactly
    within the margin *)
Theorem C102_costs : forall t rows, rows <> [] -> (8 <= length (last rows []))%nat -> exists d a, throw_cost t rows = Ok [d + a; d; a] /\
  0 <= d /\ 0 <= a /\ (d = 0 <-> Rabs (nth 7 (last rows []) 0 - x_goal t) <= x_margin t) /\
  (0 < d -> d = Rabs (nth 7 (last rows []) 0 - x_goal t) - x_margin t) /\
  a = Rmax 0 (acc_weight t) * rsum (map (fun r => square (cols 5 2 r)) rows) / INR (length rows).
Proof.
  intros t rows Ne L. destruct (throw_cost_ok t rows _ Ne eq_refl L) as (d & a & E & Ed & Ea & D0 & A0). exists d, a. do 3 (split; [trivial|]).
  split; [rewrite Ed; unfold Rmax; destruct (Rle_dec _ _); lra|]. split; [rewrite Ed; unfold Rmax; destruct (Rle_dec _ _); lra|exact Ea].
Qed.
Print Assumptions C102_costs.
(** a matrix without rows, or without the columns of the ball *)
Theorem C102_columns : forall t rows, (length (last rows []) < 8)%nat -> throw_cost t rows = Err IndexError.
Proof. exact throw_cost_err. Qed.
Print Assumptions C102_columns.
(** the landing cost of a throw depends on the hand at the release only, and is the same in both languages:
    the ball lands at the x it reaches with constant velocity *)
Theorem C102_landing_python : forall D start step sample (d : D) tau H t q, let n := ceil_nat (1.5 * tau / 0.01) in let p := h_y (H 61%nat) in let v := h_yd (H 61%nat) in
  0 < tau -> (forall k, planar (H k)) -> moves D start step sample 0.01 d n H -> lands (task_floor t) 0.01 p v q -> (61 + q < n)%nat ->
  exists rows a, py_simulation D start step sample tau (task_floor t) d = Ok rows /\
    let c := Rmax 0 (Rabs (nth 0 p 0 + INR q * 0.01 * nth 0 v 0 - x_goal t) - x_margin t) in throw_cost t rows = Ok [c + a; c; a].
Proof.
  intros D start step sample d tau H t q n p v Ht HP HM La Hq. destruct (C101_python D start step sample d tau H (task_floor t) Ht HP HM) as (rows & E & L & HR). fold n in L, HR.
  destruct (py_costs t H n rows ltac:(lia) L _ _ _ HR) as (c & a & Ec & Hc & _). exists rows, a. split; [exact E|]. rewrite Ec. rewrite (Hc _ (landed_at _ _ _ _ _ q HP La Hq)). reflexivity.
Qed.
Print Assumptions C102_landing_python.
Theorem C102_landing_cpp : forall D start step sample (d : D) tau H t q, let n := floor_nat (1.5 * tau / 0.01) in let p := h_y (H 61%nat) in let v := h_yd (H 61%nat) in
  (forall k, planar (H k)) -> moves D start step sample 0.01 d n H -> (forall k, (k <= n)%nat -> exists q, state_at D start step 0.01 d k = Ok q) -> lands (-0.3) 0.01 p v q -> (61 + q < n)%nat ->
  exists rows a, c_execute_dmp D start step sample tau d = Ok rows /\
    let c := Rmax 0 (Rabs (nth 0 p 0 + INR q * 0.01 * nth 0 v 0 - x_goal t) - x_margin t) in throw_cost t rows = Ok [c + a; c; a].
Proof.
  intros D start step sample d tau H t q n p v HP HM HS La Hq. destruct (C101_cpp D start step sample d tau H HP HM HS) as (rows & E & L & HR). fold n in L, HR.
  destruct (cpp_costs t H n rows ltac:(lia) L _ _ HR) as (c & a & Ec & Hc & _). exists rows, a. split; [exact E|]. rewrite Ec. rewrite (Hc _ (landed_at _ _ _ _ _ q HP La Hq)). reflexivity.
Qed.
Print Assumptions C102_landing_cpp.
Example C102_landing_case : lands (-0.3) 0.01 (h_y rest) (h_yd rest) 25 /\ (61 + 25 < ceil_nat (1.5 * 1 / 0.01))%nat /\ (61 + 25 < floor_nat (1.5 * 1 / 0.01))%nat.
Proof. rewrite ceil_150, floor_150. split; [apply rest_lands|lia]. Qed.
(** the acceleration cost: in C++ the mean of the squared accelerations of the hand; in Python the one at
    the release is replaced by gravity *)
Theorem C102_effort_cpp : forall D start step sample (d : D) tau H t, let n := floor_nat (1.5 * tau / 0.01) in
  (1 <= n)%nat -> (forall k, planar (H k)) -> moves D start step sample 0.01 d n H -> (forall k, (k <= n)%nat -> exists q, state_at D start step 0.01 d k = Ok q) ->
  exists rows c, c_execute_dmp D start step sample tau d = Ok rows /\
    let a := Rmax 0 (acc_weight t) * effort n H / INR n in throw_cost t rows = Ok [c + a; c; a].
Proof.
  intros D start step sample d tau H t n Hn HP HM HS. destruct (C101_cpp D start step sample d tau H HP HM HS) as (rows & E & L & HR). fold n in L, HR.
  destruct (cpp_costs t H n rows Hn L _ _ HR) as (c & a & Ec & _ & Ea). exists rows, c. split; [exact E|]. rewrite Ec, Ea. reflexivity.
Qed.
Print Assumptions C102_effort_cpp.
Theorem C102_effort_refuted : forall D start step sample (d : D) tau H y_floor t, let n := ceil_nat (1.5 * tau / 0.01) in
  0 < tau -> (62 < n)%nat -> (forall k, planar (H k)) -> moves D start step sample 0.01 d n H ->
  exists rows c, py_simulation D start step sample tau y_floor d = Ok rows /\
    let a := Rmax 0 (acc_weight t) * (effort n H - square (h_ydd (H 61%nat)) + 9.81 * 9.81) / INR n in throw_cost t rows = Ok [c + a; c; a].
Proof.
  intros D start step sample d tau H y_floor t n Ht Hn HP HM. destruct (C101_python D start step sample d tau H y_floor Ht HP HM) as (rows & E & L & HR). fold n in L, HR.
  destruct (py_costs t H n rows ltac:(lia) L _ _ _ HR) as (c & a & Ec & _ & Ea). exists rows, c. split; [exact E|]. rewrite Ec, Ea. replace (Nat.ltb 62 n) with true by (symmetry; apply Nat.ltb_lt; lia). reflexivity.
Qed.
Print Assumptions C102_effort_refuted.
Example C102_effort_case : effort 150 (fun _ => rest) = 0 /\ (62 < ceil_nat (1.5 * 1 / 0.01))%nat.
Proof. rewrite ceil_150. split; [|lia]. unfold effort. assert (Z : forall l : list nat, rsum (map (fun _ => square (h_ydd rest)) l) = 0) by (induction l as [|x l IH]; cbn [map rsum]; [reflexivity|]; rewrite IH; unfold square; cbn; ring). apply Z. Qed.
