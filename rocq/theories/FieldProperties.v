(** C104: rollouts of a DMP with gain schedules in a force field.
    [driven], [pull], [constant_gain], [consistent], [moderate], [rests], [stiffness], [compliance],
    [settling], [gain_value]: see FieldSpec. [wf]: DmpSpec. [limited], [sched_ready], [bounded_by]: SchedSpec. *)
From Coq Require Import String.
From Verif Require Import Base BaseLemmas DynModel DynSpec ParamModel ParamSpec TrajModel TrajSpec DmpModel DmpSpec DmpSpec2 DmpProofs DmpProofs5 DmpExamples SchedModel SchedSpec SchedExamples TaskModel TaskSpec TaskProofs3 DmpProofs3 FieldModel FieldSpec FieldProofs FieldProofs2 FieldProofs3.
Open Scope R_scope.
Notation predictor := (nat -> list (string * pval) -> R -> res R).

(** A rollout starts with the desired movement. In each time step the desired movement takes one step on
    its own, and the robot is accelerated by a spring and a damper towards it and by the force. *)
Theorem C104_simulated : forall (S : Type) dim start (step : R -> S -> res (S * wish)) T n s mt rows, 0 < mt ->
  field_rollout S dim start step T n s mt = Ok rows -> let dt := T / (IZR n - 1) in
  (2 <= n)%Z /\ length rows = Z.to_nat n /\
  (forall k, (k < length rows)%nat -> u_t (row_at rows k) = T * INR k / (IZR n - 1) /\
     exists st, wish_at S start step dt k = Ok (st, u_des (row_at rows k))) /\
  (let r := row_at rows 0 in u_y r = q_y (u_des r) /\ u_yd r = q_yd (u_des r) /\ u_ydd r = q_ydd (u_des r) /\ u_field r = 0) /\
  forall k, (Datatypes.S k < length rows)%nat -> driven dim dt s mt (row_at rows k) (row_at rows (Datatypes.S k)).
Proof. exact roll_inv. Qed.
Print Assumptions C104_simulated.
(** It succeeds if the desired movement is defined and gains are not negative. *)
Theorem C104_defined : forall (S : Type) dim start (step : R -> S -> res (S * wish)) T n s mt, 0 < mt -> (2 <= n)%Z ->
  let dt := T / (IZR n - 1) in
  (forall k, (k < Z.to_nat n)%nat -> exists st d, wish_at S start step dt k = Ok (st, d) /\ Forall (fun g => 0 <= g) (q_gain d)) ->
  exists rows, field_rollout S dim start step T n s mt = Ok rows.
Proof. exact roll_total. Qed.
Print Assumptions C104_defined.
(** The desired movement does not depend on the force, nor does it matter for success. *)
Theorem C104_desired : forall (S : Type) dim start (step : R -> S -> res (S * wish)) T n s s' mt mt' rows, 0 < mt -> 0 < mt' ->
  field_rollout S dim start step T n s mt = Ok rows ->
  exists rows', field_rollout S dim start step T n s' mt' = Ok rows' /\ length rows' = length rows /\
    forall k, (k < length rows)%nat -> u_des (row_at rows' k) = u_des (row_at rows k) /\ u_t (row_at rows' k) = u_t (row_at rows k).
Proof.
  intros S dim start step T n s s' mt mt' rows Hm Hm' E. destruct (roll_any _ _ _ _ T n s mt s' mt' rows Hm' E) as [rows' E'].
  exists rows'. split; [exact E'|]. pose proof (fun k => roll_same_wishes _ _ _ _ T n s s' mt mt' rows rows' k Hm Hm' E E') as H.
  split; [exact (proj1 (H 0%nat))|]. intros k. exact (proj2 (H k)).
Qed.
Print Assumptions C104_desired.
(** The response to the force is linear in its strength. *)
Theorem C104_superposition : forall (S : Type) dim start (step : R -> S -> res (S * wish)) T n s1 s2 a mt rows1 rows2 rows, 0 < mt ->
  field_rollout S dim start step T n s1 mt = Ok rows1 -> field_rollout S dim start step T n s2 mt = Ok rows2 ->
  field_rollout S dim start step T n (a * s1 + (1 - a) * s2) mt = Ok rows ->
  forall k i, (k < length rows)%nat -> (i < dim)%nat ->
    pos (row_at rows k) i = a * pos (row_at rows1 k) i + (1 - a) * pos (row_at rows2 k) i /\
    vel (row_at rows k) i = a * vel (row_at rows1 k) i + (1 - a) * vel (row_at rows2 k) i /\
    acc (row_at rows k) i = a * acc (row_at rows1 k) i + (1 - a) * acc (row_at rows2 k) i.
Proof. exact superpose. Qed.
Print Assumptions C104_superposition.
(** With constant gains, the force moves the robot by at most a multiple of strength over gain. *)
Theorem C104_force_partial : forall (S : Type) dim start (step : R -> S -> res (S * wish)) T s mt g n rows rows0 k i,
  let a := stiffness (T / (IZR n - 1)) g in 0 < mt -> 0 < g -> 0 < a < 1 ->
  field_rollout S dim start step T n s mt = Ok rows -> constant_gain dim g rows ->
  field_rollout S dim start step T n 0 mt = Ok rows0 -> (k < length rows)%nat -> (i < dim)%nat ->
  Rabs (pos (row_at rows k) i - pos (row_at rows0 k) i) <= compliance a * (Rabs s / g).
Proof. intros S dim start step T s mt g n rows rows0 k i a Hm Hg Ha E C E0 Hk Hi. exact (force_bound S dim start step T s mt g n Hm Hg Ha rows E C rows0 k i E0 Hk Hi). Qed.
Print Assumptions C104_force_partial.
(** If the desired movement rests, the robot settles around it. *)
Theorem C104_settles_partial : forall (S : Type) dim start (step : R -> S -> res (S * wish)) T s mt g n rows k0 k i y,
  let dt := T / (IZR n - 1) in let a := stiffness dt g in 0 < mt -> 0 < g -> 0 < a < 1 ->
  field_rollout S dim start step T n s mt = Ok rows -> constant_gain dim g rows -> rests dim k0 y rows ->
  (k0 <= k < length rows)%nat -> (i < dim)%nat ->
  Rabs (pos (row_at rows k) i - nth i y 0) <=
    settling a * (Rabs (pos (row_at rows k0) i - nth i y 0) + dt * Rabs (vel (row_at rows k0) i)) * sqrt (1 - a) ^ (k - k0)
    + compliance a * (Rabs s / g).
Proof. intros S dim start step T s mt g n rows k0 k i y dt a Hm Hg Ha E C Rs Hk Hi. exact (settles S dim start step T s mt g n Hm Hg Ha rows E C k0 k i y Rs Hk Hi). Qed.
Print Assumptions C104_settles_partial.
(** The robot stays close to a consistent desired movement. *)
Theorem C104_tracks_partial : forall (S : Type) dim start (step : R -> S -> res (S * wish)) T s mt g n rows V A k i,
  let dt := T / (IZR n - 1) in let a := stiffness dt g in 0 < mt -> 0 < g -> 0 < a < 1 ->
  field_rollout S dim start step T n s mt = Ok rows -> constant_gain dim g rows -> consistent dim dt rows -> moderate dim V A rows ->
  (k < length rows)%nat -> (i < dim)%nat ->
  Rabs (pos (row_at rows k) i - pos_des (row_at rows k) i) <= compliance a * (dt * V + dt * A / sqrt g + Rabs s / g).
Proof. intros S dim start step T s mt g n rows V A k i dt a Hm Hg Ha E C Cs Md Hk Hi. exact (tracks S dim start step T s mt g n Hm Hg Ha rows E C V A k i Cs Md Hk Hi). Qed.
Print Assumptions C104_tracks_partial.

(** for a gain of 4 and 11 time steps in one second *)
Definition ex_stiff : stiffness (1 / (IZR 11 - 1)) 4 = 0.2.
Proof. unfold stiffness. replace (sqrt 4) with 2 by (replace 4 with (2 * 2) by ring; rewrite sqrt_square; lra). lra. Qed.
Definition ex_rest : res (unit * wish) := Ok (tt, Wish [1] [0] [0] [4]).
Lemma ex_rest_at dt k : wish_at unit ex_rest (fun _ _ => ex_rest) dt k = ex_rest.
Proof. induction k as [|k IH]; [reflexivity|]. cbn [wish_at]. now rewrite IH. Qed.
Example C104_case : exists rows rows0, let roll := field_rollout unit 1 ex_rest (fun _ _ => ex_rest) in
  roll 1 11%Z (-20) 0.5 = Ok rows /\ roll 1 11%Z 0 0.5 = Ok rows0 /\ constant_gain 1 4 rows /\ rests 1 0 [1] rows /\
  consistent 1 (1 / (IZR 11 - 1)) rows /\ moderate 1 0 0 rows /\ 0 < stiffness (1 / (IZR 11 - 1)) 4 < 1 /\ length rows = 11%nat.
Proof.
  assert (H : forall s, exists rows, field_rollout unit 1 ex_rest (fun _ _ => ex_rest) 1 11%Z s 0.5 = Ok rows).
  { intros s. apply roll_total; [lra|lia|]. intros k _. rewrite ex_rest_at. exists tt, (Wish [1] [0] [0] [4]). split; [reflexivity|]. repeat constructor. lra. }
  destruct (H (-20)) as [rows E]. destruct (H 0) as [rows0 E0]. exists rows, rows0. cbv zeta. do 2 (split; [assumption|]).
  assert (Hm : 0 < 0.5) by lra. destruct (roll_inv _ _ _ _ _ _ _ _ _ Hm E) as (_ & L & W & _).
  assert (D : forall k, (k < length rows)%nat -> u_des (row_at rows k) = Wish [1] [0] [0] [4]).
  { intros k Hk. destruct (W k Hk) as (_ & st & Ew). rewrite ex_rest_at in Ew. unfold ex_rest in Ew. congruence. }
  assert (D' : forall k i, (k < length rows)%nat -> (i < 1)%nat -> pos_des (row_at rows k) i = 1 /\ vel_des (row_at rows k) i = 0 /\ acc_des (row_at rows k) i = 0 /\ gain (row_at rows k) i = 4).
  { intros k i Hk Hi. unfold pos_des, vel_des, acc_des, gain. rewrite D by trivial. destruct i; [now repeat split|lia]. }
  split; [intros k i Hk Hi; exact (proj2 (proj2 (proj2 (D' k i (proj2 Hk) Hi))))|]. split.
  { intros k i Hk Hi. destruct (D' k i ltac:(lia) Hi) as (A & B & C & _). rewrite A, B, C. destruct i; [now repeat split|lia]. }
  split.
  { intros k i Hk Hi r r'. destruct (D' k i ltac:(lia) Hi) as (A & B & C & _). destruct (D' (S k) i ltac:(lia) Hi) as (A' & B' & C' & _). unfold r, r'.
    rewrite A, B, A', B', C'. lra. }
  split.
  { intros k i Hk Hi. destruct (D' k i ltac:(lia) Hi) as (_ & B & C & _). rewrite B, C, Rabs_R0. lra. }
  split; [rewrite ex_stiff; lra|]. exact L.
Qed.

(** The robot does not follow a consistent desired movement exactly, even without a force: errors compare
    the robot with where the desired movement will be one time step later. *)
Theorem C104_ahead : forall (S : Type) dim start (step : R -> S -> res (S * wish)) T n mt rows i, 0 < mt ->
  field_rollout S dim start step T n 0 mt = Ok rows -> let dt := T / (IZR n - 1) in consistent dim dt rows -> (i < dim)%nat ->
  let r := row_at rows 1 in
  pos r i - pos_des r i = dt ^ 3 * (gain r i * vel_des r i + sqrt (gain r i) * acc_des r i).
Proof.
  intros S dim start step T n mt rows i Hm E dt C Hi r. destruct (roll_inv S dim start step _ _ _ _ _ Hm E) as (N & L & _ & (Y & V & _) & D). fold dt in D.
  destruct (D 0%nat ltac:(lia)) as (F & _ & _ & _ & Q). destruct (Q i Hi) as (Qa & Qv & Qp). destruct (C 0%nat i ltac:(lia) Hi) as [C1 C2]. cbv zeta in C1, C2.
  fold r in F, Qa, Qv, Qp, C1, C2. assert (P0 : pos (row_at rows 0) i = pos_des (row_at rows 0) i) by (unfold pos, pos_des; now rewrite Y).
  assert (V0 : vel (row_at rows 0) i = vel_des (row_at rows 0) i) by (unfold vel, vel_des; now rewrite V).
  assert (Z : u_field r = 0) by (rewrite F; unfold pull; ring). rewrite Qp, Qv, Qa, Z, P0, V0, C2, C1. ring.
Qed.
Print Assumptions C104_ahead.
(** a desired movement with constant velocity *)
Definition ex_line (k : nat) : nat * wish := (k, Wish [INR k] [1] [0] [1]).
Lemma ex_line_at k : wish_at nat (Ok (ex_line 0)) (fun _ k => Ok (ex_line (S k))) 1 k = Ok (ex_line k).
Proof. induction k as [|k IH]; [reflexivity|]. cbn [wish_at]. now rewrite IH. Qed.
Theorem C104_follows_refuted : exists (S : Type) start (step : R -> S -> res (S * wish)) T n mt rows, 0 < mt /\
  field_rollout S 1 start step T n 0 mt = Ok rows /\ consistent 1 (T / (IZR n - 1)) rows /\
  exists k, (k < length rows)%nat /\ pos (row_at rows k) 0 <> pos_des (row_at rows k) 0.
Proof.
  exists nat, (Ok (ex_line 0)), (fun _ k => Ok (ex_line (S k))), 1, 2%Z, 1.
  assert (T1 : 1 / (2 - 1) = 1) by lra.
  destruct (roll_total nat 1 (Ok (ex_line 0)) (fun _ k => Ok (ex_line (S k))) 1 2%Z 0 1 ltac:(lra) ltac:(lia)) as [rows E].
  { intros k _. rewrite T1, ex_line_at. unfold ex_line. do 2 eexists. split; [reflexivity|]. repeat constructor. lra. }
  destruct (roll_inv _ _ _ _ _ _ _ _ _ Rlt_0_1 E) as (_ & L & W & _).
  assert (D : forall k, (k < length rows)%nat -> u_des (row_at rows k) = Wish [INR k] [1] [0] [1]).
  { intros k Hk. destruct (W k Hk) as (_ & st & Ew). rewrite T1, ex_line_at in Ew. unfold ex_line in Ew. congruence. }
  assert (C : consistent 1 (1 / (2 - 1)) rows).
  { rewrite T1. intros k [|i] Hk Hi r r'; [|lia]. unfold vel_des, pos_des, acc_des, r, r'. rewrite !D by lia. cbn [q_y q_yd q_ydd nth]. rewrite S_INR. lra. }
  exists rows. split; [lra|]. split; [exact E|]. split; [exact C|]. exists 1%nat. split; [rewrite L; cbn; lia|].
  pose proof (C104_ahead nat 1 _ _ 1 2%Z 1 rows 0%nat Rlt_0_1 E C ltac:(lia)) as H. cbv zeta in H. rewrite T1 in H.
  unfold gain, vel_des, acc_des in H. rewrite D in H by (rewrite L; cbn; lia). cbn [q_gain q_yd q_ydd nth] in H. rewrite sqrt_1 in H. intros X. rewrite X in H. lra.
Qed.
Print Assumptions C104_follows_refuted.

(** Too few time steps are an error. *)
Theorem C104_short : forall (S : Type) dim start (step : R -> S -> res (S * wish)) T n s mt, (n < 2)%Z ->
  field_rollout S dim start step T n s mt = Err (if (n <? 0)%Z then ValueError else IndexError).
Proof.
  intros S dim start step T n s mt Hn. unfold field_rollout. destruct (linspace0 T n) as [ts|e] eqn:Et; cbn [bind].
  - rewrite (linspace_short _ _ _ Et Hn). cbn [bind]. unfold linspace0 in Et. now destruct (n <? 0)%Z.
  - unfold linspace0 in Et. destruct (n <? 0)%Z; [|discriminate]. congruence.
Qed.
Print Assumptions C104_short.

(** For a DMP with schedules: the desired movement is that of the DMP, integrated with Runge-Kutta steps
    from its initial state; the gains are its schedules at the phase, limited to the bounds. *)
Theorem C104_dmp : forall (pf sf : predictor) w lo hi T n s mt, let m := w_dmp w in
  wf pf m -> synced m -> plain_goal m -> dmp_regular m 0 -> free m -> sched_ready sf w -> bounded_by w lo hi -> usable_gains w lo hi ->
  (forall ph i, (i < m_dim m)%nat -> 0 <= gain_value sf w lo hi ph i) -> 0 < mt -> (2 <= n)%Z ->
  exists m' X XD rows, let dt := T / (IZR n - 1) in
    m_start pf m None = Ok (m', X 0%nat, XD 0%nat) /\
    (forall k, step_rk (rate_of pf m') (dim_x m) dt (X k) = Ok (X (Datatypes.S k), XD (Datatypes.S k))) /\
    perform_field_rollout pf sf w T n s mt = Ok rows /\ length rows = Z.to_nat n /\
    forall k i, (k < length rows)%nat -> (i < m_dim m)%nat -> let r := row_at rows k in
      pos_des r i = nth i (X k) 0 /\ vel_des r i = nth i (XD k) 0 /\ acc_des r i = nth (m_dim m + i) (XD k) 0 / m_tau m /\
      gain r i = gain_value sf w lo hi (nth (3 * m_dim m) (X k) 0) i.
Proof.
  intros pf sf w lo hi T n s mt m W Sy Pl R0 F Sr B N Hg Hm Hn.
  destruct (field_dmp pf sf w lo hi T n s mt W Sy Pl R0 F Sr B N Hg Hm Hn) as (m' & X & XD & rows & E1 & E2 & E3 & L & H).
  exists m', X, XD, rows. cbv zeta. do 4 (split; [assumption|]). intros k i Hk Hi. destruct (H k i Hk Hi) as (A & B' & C & D & _). now repeat split.
Qed.
Print Assumptions C104_dmp.
(** The costs of the demonstration task are those of the rollout: see C90 for the three costs. *)
Theorem C104_costs : forall (pf sf : predictor) w lo hi T n s (k : gtask), let m := w_dmp w in let d := length (g_via k) in
  wf pf m -> synced m -> plain_goal m -> dmp_regular m 0 -> free m -> sched_ready sf w -> bounded_by w lo hi -> usable_gains w lo hi ->
  (forall ph i, (i < m_dim m)%nat -> 0 <= gain_value sf w lo hi ph i) -> 0 < m_tau m -> (2 <= n)%Z -> m_dim m = d -> (0 < d)%nat -> g_max k <> 0 ->
  exists rows table cs v, let N := Z.to_nat n in
    perform_field_rollout pf sf w T n s (0.5 * m_tau m) = Ok rows /\ gains_cost_vars pf sf w T n s = Ok table /\
    gains_evaluate k (Mat (1 + 7 * d) table) = Ok cs /\ length cs = 4%nat /\
    nth 0 cs 0 = nth 1 cs 0 + nth 2 cs 0 + nth 3 cs 0 /\
    counts d (point (g_via k)) (Some (g_time k)) (map u_t rows) (fun i => pos (row_at rows i)) v /\
    nth 1 cs 0 = g_wv k * dist d (pos (row_at rows v)) (point (g_via k)) /\
    nth 2 cs 0 = g_wa k * sumn N (fun i => sumn d (fun j => Rabs (acc (row_at rows i) j))) / INR N /\
    nth 3 cs 0 = g_wg k * ((sumn N (fun i => sumn d (fun j => gain (row_at rows i) j)) - g_min k) / (INR N * g_max k)).
Proof.
  intros pf sf w lo hi T n s k m d W Sy Pl R0 F Sr B Ng Hg Ht Hn Hd Hd0 Hmax. assert (Hm : 0 < 0.5 * m_tau m) by lra.
  destruct (field_dmp pf sf w lo hi T n s (0.5 * m_tau m) W Sy Pl R0 F Sr B Ng Hg Hm Hn) as (m' & X & XD & rows & _ & _ & E & L & H). fold m in H. cbv zeta in H.
  assert (Hf : forall j, (j < length rows)%nat -> full_row d (row_at rows j)).
  { intros j Hj. unfold perform_field_rollout in E. destruct (roll_inv _ _ _ _ _ _ _ _ _ Hm E) as (_ & _ & _ & (Y & V & A & _) & D).
    destruct (H j 0%nat Hj ltac:(lia)) as (_ & _ & _ & _ & L1 & L2 & L3 & L4). rewrite Hd in *. unfold full_row.
    destruct j as [|j].
    - rewrite Y, V, A. now repeat split.
    - destruct (D j Hj) as (_ & M1 & M2 & M3 & _). fold m in M1, M2, M3. rewrite Hd in *. now repeat split. }
  assert (Hs : samples (Z.to_nat n) (1 + 7 * d) (Mat (1 + 7 * d) (map field_row rows))).
  { split; [reflexivity|]. split; [cbn [mrows]; now rewrite map_length|]. cbn [mrows]. intros r Hr. apply in_map_iff in Hr. destruct Hr as (q & <- & Hq).
    destruct (In_nth rows q no_row Hq) as (j & Hj & <-). now destruct (field_row_at d _ (Hf j Hj)). }
  assert (At : forall i c, (i < length rows)%nat -> at2 (Mat (1 + 7 * d) (map field_row rows)) i c = nth c (field_row (row_at rows i)) 0).
  { intros i c Hi. unfold at2. cbn [mrows]. now rewrite (nth_map_l _ _ _ no_row) by trivial. }
  destruct (gains_costs k (Z.to_nat n) (1 + 7 * d) (Mat (1 + 7 * d) (map field_row rows)) Hs) as (v & cs & Ec & Lc & E0 & Cv & E1 & E2 & E3); [lia|lia|exact Hmax|].
  fold d in Cv, E1, E2, E3. exists rows, (map field_row rows), cs, v. cbv zeta. split; [exact E|].
  split; [unfold gains_cost_vars; fold m; now rewrite E|]. split; [exact Ec|]. split; [exact Lc|]. split; [exact E0|].
  assert (Et : map (fun i => at2 (Mat (1 + 7 * d) (map field_row rows)) i 0) (seq 0 (Z.to_nat n)) = map u_t rows).
  { rewrite <- L. apply (nth_ext _ _ 0 0); rewrite !map_length, ?seq_length; [reflexivity|]. intros i Hi. rewrite nth_map_seq by trivial. rewrite At by trivial.
    rewrite (nth_map_l _ _ _ no_row) by trivial. now destruct (field_row_at d _ (Hf i Hi)) as (_ & -> & _). }
  rewrite Et in Cv.
  assert (Hv : (v < length rows)%nat). { unfold counts in Cv. rewrite map_length in Cv. destruct Cv as [[? _]|[-> _]]; [trivial|lia]. }
  split; [exact Cv|]. split.
  { rewrite E1. f_equal. unfold dist. f_equal. apply sumn_ext. intros j Hj. rewrite At by trivial. now destruct (field_row_at d _ (Hf v Hv)) as (_ & _ & Q); destruct (Q j Hj) as (-> & _). }
  split.
  { rewrite E2. f_equal. f_equal. apply sumn_ext. intros i Hi. apply sumn_ext. intros j Hj. rewrite At by lia. destruct (field_row_at d _ (Hf i ltac:(lia))) as (_ & _ & Q). destruct (Q j Hj) as (_ & _ & -> & _). reflexivity. }
  { rewrite E3. do 3 f_equal. apply sumn_ext. intros i Hi. apply sumn_ext. intros j Hj. rewrite At by lia. destruct (field_row_at d _ (Hf i ltac:(lia))) as (_ & _ & Q). destruct (Q j Hj) as (_ & _ & _ & -> & _). reflexivity. }
Qed.
Print Assumptions C104_costs.
(** a DMP with one gain, limited to at least 10 *)
Example C104_dmp_case : exists w lo hi, let m := w_dmp w in
  wf ex_pf m /\ synced m /\ plain_goal m /\ dmp_regular m 0 /\ free m /\ sched_ready ex_sf w /\ bounded_by w lo hi /\ usable_gains w lo hi /\
  (forall ph i, (i < m_dim m)%nat -> 10 <= gain_value ex_sf w lo hi ph i <= 1000) /\ 0 < m_tau m /\ m_dim m = 1%nat.
Proof.
  destruct ex_new as (m & E & S & Sy & Pl & Ed & Ef & _ & Es & Hg & Ego & Eda & Ega & Eph & _ & Et).
  destruct ex_wf as (m1 & E1 & W & _). assert (m1 = m) by congruence. subst m1.
  exists (Wdmp m [Fa [("weights"%string, PArr (Arr [2%nat] [5; 1]))] (Some 1%nat) None] (SArr [10]) (SArr [1000])), (AScalar 10), (AScalar 1000). cbn [w_dmp].
  do 3 (split; [assumption|]). split; [unfold dmp_regular; rewrite Ego, Eda, Ega, Eph; repeat split|].
  split; [unfold free; rewrite Ego, Eda, Ega, Eph; repeat split; discriminate|].
  split; [intros [|[|i]] f Hf; cbn in Hf; try discriminate; injection Hf as <-; split; [reflexivity|]; intros; apply ex_sf_total|].
  split; [split; [|split; [|split; reflexivity]]; (right; right; split; [reflexivity|]; eexists; split; [|left; reflexivity]; lra)|].
  split; [now left|]. split; [|split; [lra|exact Ed]].
  intros ph i _. unfold gain_value, schedule_of, limited. cbn [w_fas length Nat.eqb arg_at].
  match goal with |- context [sched_val ?a ?b ?c ?d] => generalize (sched_val a b c d) end. intros v. cbn [nth_error repeat].
  pose proof (Rmax_l 10 v). unfold Rmin. destruct (Rle_dec 1000 (Rmax 10 v)); lra.
Qed.
