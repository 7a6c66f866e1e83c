(** Concrete tasks and rollouts: cases of the theorems, and counterexamples. *)
From Coq Require Import String.
From Verif Require Import Base BaseLemmas ParamModel ParamSpec TrajModel TrajSpec TrajExamples DynModel DmpModel DmpSpec DmpExamples TaskModel TaskSpec TaskProofs TaskProofs2 TaskProofs3.
Open Scope R_scope.

(** pass 2 at some time within 0.5, be at 3 from time 2 on *)
Definition ex_k (wg : R) : task := Task [2] None 0.5 (Some [3]) (Some 2) 1 1 1 wg.
Lemma ex_k_ready : goal_ready (ex_k 1) (tj_ts ex_t).
Proof.
  intros g _ E. injection E as <-. split; [reflexivity|]. exists 2. split; [reflexivity|].
  intros H. assert (I : In 2%nat (late 2 (tj_ts ex_t))) by (apply late_iff; cbn; split; [lia|lra]). rewrite H in I. exact I.
Qed.
Lemma ex_k_ready0 : goal_ready (ex_k 0) (tj_ts ex_t).
Proof. intros g H. cbn in H. lra. Qed.
Lemma ex_k_task : new_task [2] (TKw None (Some 0.5) (Some (Some [3])) (Some 2) None (Some 1) (Some 1) (Some 1)) = Ok (ex_k 1).
Proof. reflexivity. Qed.

(** the goal weight changes the cost of accelerations *)
Lemma acc_changes : exists cs cs', (exists c, as_cost_vars false ex_t = Ok c /\ evaluate_rollout (ex_k 0) c [1] = Ok cs /\ evaluate_rollout (ex_k 1) c [1] = Ok cs') /\
  nth 2 cs 0 = 0.25 /\ nth 2 cs' 0 = 0.75.
Proof.
  destruct (traj_costs false (ex_k 0) ex_t [1] ex_t_ok eq_refl ltac:(cbn; lia) ltac:(discriminate) ltac:(discriminate) ex_k_ready0) as (c & cs & Ec & Ev & _ & _ & _ & _ & A & _).
  destruct (traj_costs false (ex_k 1) ex_t [1] ex_t_ok eq_refl ltac:(cbn; lia) ltac:(discriminate) ltac:(discriminate) ex_k_ready) as (c' & cs' & Ec' & Ev' & _ & _ & _ & _ & A' & _).
  assert (c' = c) by congruence. subst c'. exists cs, cs'. split; [now exists c|]. split.
  - rewrite A by (cbn; lra). unfold divisor, ex_k, at2. cbn [k_goal k_goal_time k_wg k_wa]. destruct (Rlt_dec 0 0); [lra|]. cbn. lra.
  - rewrite A' by (cbn; lra). unfold divisor, ex_k, at2, late. cbn [k_goal k_goal_time k_wg k_wa]. destruct (Rlt_dec 0 1); [|lra]. cbn [ex_t tj_ts length seq filter nth].
    destruct (Rle_dec 2 0); [lra|]. destruct (Rle_dec 2 1); [lra|]. destruct (Rle_dec 2 2); [|lra]. cbn. lra.
Qed.

(** a via-point time after the end: the first row counts, although the rollout ends in the via-point *)
Definition ex_late : task := Task [3] (Some 2.5) 0 None None 1 0 0 0.
Lemma late_viapoint : exists c cs, as_cost_vars false ex_t = Ok c /\ evaluate_rollout ex_late c [1] = Ok cs /\ nth 1 cs 0 = 3.
Proof.
  destruct (traj_costs false ex_late ex_t [1] ex_t_ok eq_refl ltac:(cbn; lia) ltac:(discriminate) ltac:(discriminate)) as (c & cs & Ec & Ev & _ & _ & V & _).
  { intros g H. cbn in H. lra. }
  exists c, cs. split; [exact Ec|]. split; [exact Ev|]. destruct (V ltac:(cbn; lra)) as (w & C & ->). cbn [ex_late k_time k_via] in C.
  assert (w = 0%nat) as ->. { destruct C as [(H1 & H2 & _)|(H1 & _)]; [|exact H1]. destruct w as [|[|[|w]]]; cbn in *; try lia; lra. }
  unfold dist, at2, point. cbn. replace (0 + (0 - 3) * ((0 - 3) * 1)) with (3 * 3) by ring. rewrite sqrt_square by lra. rewrite (Rmax_left 0 0) by lra. rewrite Rmax_right by lra. lra.
Qed.

(** a via-point with fewer dimensions than the rollout: velocities are taken for accelerations *)
Definition ex_one : task := Task [3] None 0 None None 0 1 0 0.
Definition ex_2d : traj :=
  Traj [0; 1] (Some 1) 2 (Mat 2 [[3; 3]; [4; 4]]) (Mat 2 [[1; 1]; [1; 1]]) (Mat 2 [[5; 0]; [5; 0]]) None.
Lemma ex_2d_ok : consistent ex_2d.
Proof. cons. discriminate. Qed.
Lemma sq25 : rsum (map (fun r => rsum (map (fun x => x * x) r)) [[5]; [5]]) / INR 1 = 50.
Proof. cbn. lra. Qed.
Lemma sq1 : rsum (map (fun r => rsum (map (fun x => x * x) r)) [[1]; [1]]) / INR 1 = 2.
Proof. cbn. lra. Qed.
Lemma ev_one ts ys a b : length ts = 2%nat -> evaluate_local ex_one ts ys (Mat 1 [[a]; [b]]) [] = Ok
  (rsum [0 * 0; 1 * (rsum (map (fun r => rsum (map (fun x => x * x) r)) [[a]; [b]]) / INR 1) / INR 2; 0 * 0; 0 * 0] ::
   [0 * 0; 1 * (rsum (map (fun r => rsum (map (fun x => x * x) r)) [[a]; [b]]) / INR 1) / INR 2; 0 * 0; 0 * 0]).
Proof.
  intros L. unfold evaluate_local, viapoint_dist, sum_ydd, delay_cost, l2_norm, ex_one. cbn [k_wv k_wa k_wr k_wg k_goal].
  destruct (Rlt_dec 0 0); [lra|]. destruct (Rlt_dec 0 1); [|lra]. cbn [mcols Nat.eqb bind fst snd mrows]. rewrite L. reflexivity.
Qed.
Lemma smaller_viapoint : exists c c' cs cs', as_cost_vars false ex_2d = Ok c /\ as_cost_vars true ex_2d = Ok c' /\
  evaluate_rollout ex_one c [] = Ok cs /\ evaluate_rollout ex_one c' [] = Ok cs' /\ nth 2 cs 0 = 1 /\ nth 2 cs' 0 = 25.
Proof.
  assert (Ec : as_cost_vars false ex_2d = Ok (CvArray (Mat 7 [[0; 3; 3; 1; 1; 5; 0]; [1; 4; 4; 1; 1; 5; 0]]))) by reflexivity.
  assert (Ec' : as_cost_vars true ex_2d = Ok (CvFrame ["t"; "y0"; "y1"; "yd0"; "yd1"; "ydd0"; "ydd1"]%string (Mat 7 [[0; 3; 3; 1; 1; 5; 0]; [1; 4; 4; 1; 1; 5; 0]]))) by reflexivity.
  eexists _, _, _, _. split; [exact Ec|]. split; [exact Ec'|].
  assert (E1 : evaluate_rollout ex_one (CvArray (Mat 7 [[0; 3; 3; 1; 1; 5; 0]; [1; 4; 4; 1; 1; 5; 0]])) [] = evaluate_local ex_one [0; 1] [[3]; [4]] (Mat 1 [[1]; [1]]) []) by reflexivity.
  assert (E2 : evaluate_rollout ex_one (CvFrame ["t"; "y0"; "y1"; "yd0"; "yd1"; "ydd0"; "ydd1"]%string (Mat 7 [[0; 3; 3; 1; 1; 5; 0]; [1; 4; 4; 1; 1; 5; 0]])) [] = evaluate_local ex_one [0; 1] [[3]; [4]] (Mat 1 [[5]; [5]]) []) by reflexivity.
  rewrite E1, E2, !ev_one by reflexivity. split; [reflexivity|]. split; [reflexivity|]. cbn [nth]. rewrite sq1, sq25. cbn. split; lra.
Qed.

(** an arm with two links *)
Definition ex_arm : traj :=
  Traj [0; 1] (Some 1) 2 (Mat 2 [[0; 0]; [PI; 0]]) (Mat 2 [[1; 1]; [1; 1]]) (Mat 2 [[0; 0]; [0; 0]]) None.
Lemma ex_arm_ok : consistent ex_arm.
Proof. cons. discriminate. Qed.
Definition ex_arm_k : task := Task [3; 0] None 0 None None 1 1 1 0.
Lemma ex_arm_ready : goal_ready ex_arm_k (tj_ts ex_arm).
Proof. intros g H. cbn in H. lra. Qed.

(** two time steps with minimal gains *)
Definition ex_gk : gtask := GTask [0.5] 0.5 10 1000 3 0 1.
Definition ex_gm : mat := Mat 8 [[0; 0; 0; 0; 10; 0; 0; 0]; [1; 1; 0; 0; 10; 1; 0; 0]].
Lemma ex_gm_ok : samples 2 8 ex_gm.
Proof. samp. Qed.
Lemma gains_not_free : exists cs, gains_evaluate ex_gk ex_gm = Ok cs /\ 0 < nth 3 cs 0.
Proof.
  destruct (gains_costs ex_gk 2 8 ex_gm ex_gm_ok ltac:(cbn; lia) ltac:(lia) ltac:(cbn; lra)) as (w & cs & E & _). exists cs. split; [exact E|].
  rewrite (gains_minimal ex_gk 2 8 ex_gm cs ex_gm_ok); trivial; try (cbn; lia); try (cbn; lra).
  intros [|[|i]] [|j] Hi Hj; cbn in *; try lia; reflexivity.
Qed.
