(** Proofs about the ball-throwing simulations: DMPs of both languages, trajectories and costs (C101, C102). *)
From Coq Require Import String SpecFloat.
From Verif Require Import Base BaseLemmas DynModel DynSpec ParamModel FaModel TrajModel DmpModel DmpSpec DmpProofs DmpProofs2 DmpProofs3 DmpProofs5 DmpProofs6 DmpProofs14 SchedModel IntModel IntProofs3
  CppModel CppTrajModel CppSpec CppProofs CppProofs2 CppProofs3 CppProofs4 CppProofs5 ThrowModel ThrowSpec ThrowProofs ThrowProofs2.
Open Scope R_scope.

Lemma ceil_floor x : 0 < x -> (1 <= ceil_nat x)%nat /\ (floor_nat x <= ceil_nat x <= S (floor_nat x))%nat.
Proof.
  intros Hx. unfold ceil_nat, floor_nat. destruct (base_Int_part x) as [A1 A2]. destruct (base_Int_part (- x)) as [B1 B2].
  assert (C1 : (Int_part x < - Int_part (- x) + 1)%Z) by (apply lt_IZR; rewrite plus_IZR, opp_IZR; lra).
  assert (C2 : (- Int_part (- x) < Int_part x + 2)%Z) by (apply lt_IZR; rewrite plus_IZR, opp_IZR; lra).
  assert (C3 : (-1 < Int_part x)%Z) by (apply lt_IZR; lra). assert (C4 : (0 < - Int_part (- x))%Z) by (apply lt_IZR; rewrite opp_IZR; lra). lia.
Qed.

Section Dmps.
Variable ex : R -> R.
Variable kinds : nat -> fa_kind.
Notation pf := (py_predict ex kinds).
Variables (m : dmp) (dt : R).
Hypothesis G : good ex kinds 2 m.
Hypothesis Hdt : 0 < dt.
Notation pstep := (m_step pf RungeKutta).
Notation pstart := (fun m => m_start pf m None).
Notation cstep := (fun c dt x => let* p := c_rk ex c dt x in Ok (c, fst p, snd p)).
Lemma sample_touched m1 m2 x xd : touched m1 m2 -> py_sample m2 x xd = py_sample m1 x xd.
Proof. intros (a & p & g & -> & _). reflexivity. Qed.
Lemma together : exists m1, forall k, exists mk x xd h,
  state_at dmp pstart pstep dt m k = Ok (mk, x, xd) /\ state_at cdmp (c_start ex) cstep dt (img kinds m) k = Ok (img kinds m1, visible 2 x, visible 2 xd) /\
  py_sample mk x xd = Ok h /\ c_pos_vel_acc (img kinds m1) (visible 2 x) (visible 2 xd) = Ok h /\ planar h.
Proof.
  pose proof G as (W & Po & U & Ht & D). destruct (start_same ex kinds m W Po) as (g & x0 & xd0 & E1 & Lg & Lx & Lxd & E2). set (m1 := m_next m g) in *.
  assert (W1 : wf pf m1). { destruct (touched_sound pf m _ (wf_sound pf m W) (start_touch pf m _ _ _ E1)) as (S & _ & Q & _). apply sound_wf; [exact S|apply Q, (wf_ready pf), W]. }
  assert (P1 : portable kinds m1) by now apply next_portable.
  assert (D1 : m_dim m1 = 2%nat) by exact D. assert (DX : dim_x m1 = 10%nat) by (unfold dim_x; now rewrite D1).
  assert (J : forall k, exists mk x xd, state_at dmp pstart pstep dt m k = Ok (mk, x, xd) /\ state_at cdmp (c_start ex) cstep dt (img kinds m) k = Ok (img kinds m1, visible 2 x, visible 2 xd) /\
    touched m1 mk /\ length x = dim_x m1 /\ length xd = dim_x m1).
  { induction k as [|k (mk & x & xd & I1 & I2 & T & I3 & I4)].
    - exists m1, x0, xd0. cbn [state_at]. rewrite E1, E2, D. do 2 (split; [reflexivity|]). split; [apply touched_refl|now split].
    - cbn [state_at]. rewrite I1, I2. cbn [bind fst snd]. destruct (rk_same ex kinds m1 W1 P1 dt x Hdt I3) as (x' & xd' & R1 & R2 & R3 & R4). rewrite D1 in R4. rewrite R4. cbn [bind fst snd].
      pose proof (step_same pf RungeKutta m1 mk dt x T) as S. cbn [int_step] in S. change (rate_of pf m1) with (py_rate ex kinds m1) in S. rewrite R1 in S.
      destruct (pstep mk dt x) as [[[m2 y] yd]|] eqn:Es; cbn [flat same_as bind fst snd] in S; [|contradiction]. destruct S as [Ey T2]. injection Ey as -> ->.
      exists m2, x', xd'. now repeat split. }
  exists m1. intros k. destruct (J k) as (mk & x & xd & I1 & I2 & T & I3 & I4). exists mk, x, xd.
  destruct (state_same ex kinds m1 W1 P1 x xd I3 I4) as (y & yd & ydd & S1 & S2). exists (y, yd, ydd). rewrite (sample_touched m1 mk x xd T). unfold py_sample. rewrite S1. rewrite D1 in S2.
  do 4 (split; [trivial|]). unfold c_pos_vel_acc in S2. destruct (Req_EM_T _ 0); [discriminate|]. rewrite (cdim_img kinds m1 P1), D1 in S2.
  assert (Ez : (firstn 2 (visible 2 x), firstn 2 (visible 2 xd), map (fun v => v / cm_tau (img kinds m1)) (firstn 2 (skipn 2 (visible 2 xd)))) = (y, yd, ydd)) by congruence.
  assert (Z1 : y = firstn 2 (visible 2 x)) by congruence. assert (Z2 : yd = firstn 2 (visible 2 xd)) by congruence.
  assert (Z3 : ydd = map (fun v => v / cm_tau (img kinds m1)) (firstn 2 (skipn 2 (visible 2 xd)))) by congruence. subst y yd ydd.
  unfold visible, planar. rewrite map_length, !firstn_length, skipn_length, !firstn_length. lia.
Qed.
Definition rest : hand := ([0; 0], [0; 0], [0; 0]).
Definition dmp_hand (k : nat) : hand := match hand_at dmp pstart pstep py_sample dt m k with Ok h => h | Err _ => rest end.
Lemma both_move n : (forall k, planar (dmp_hand k)) /\ moves dmp pstart pstep py_sample dt m n dmp_hand /\
  moves cdmp (c_start ex) cstep c_pos_vel_acc dt (img kinds m) n dmp_hand /\ (forall k, exists q, state_at cdmp (c_start ex) cstep dt (img kinds m) k = Ok q).
Proof.
  destruct together as (m1 & J). assert (A : forall k, hand_at dmp pstart pstep py_sample dt m k = Ok (dmp_hand k) /\ planar (dmp_hand k)).
  { intros k. unfold dmp_hand. destruct (J k) as (mk & x & xd & h & J1 & J2 & J3 & J4 & J5). unfold hand_at. rewrite J1. cbn [bind fst snd]. rewrite J3. now split. }
  split; [intros k; apply A|]. split; [intros k _; apply A|]. split.
  - intros k _. destruct (J k) as (mk & x & xd & h & J1 & J2 & J3 & J4 & J5). unfold hand_at at 1. rewrite J2. cbn [bind fst snd]. rewrite J4. unfold dmp_hand, hand_at. rewrite J1. cbn [bind fst snd]. now rewrite J3.
  - intros k. destruct (J k) as (mk & x & xd & h & J1 & J2 & _). eauto.
Qed.
End Dmps.

(** *** a trajectory sampled every dt *)
Lemma trajectory_ok dt r H t0 n c : 0 < dt -> released dt r -> (forall k, planar (H k)) -> (2 <= n)%nat ->
  ct_ts c = map (fun k => t0 + INR k * dt) (seq 0 n) ->
  (forall k, (k < n)%nat -> nth k (mrows (ct_ys c)) [] = h_y (H k) /\ nth k (mrows (ct_yds c)) [] = h_yd (H k) /\ nth k (mrows (ct_ydds c)) [] = h_ydd (H k)) ->
  exists rows, c_execute_trajectory c = Ok rows /\ length rows = n /\ forall k, (k < n)%nat -> cpp_row dt r H k (nth k rows []).
Proof.
  intros Hdt Hr HP Hn Ets Hh. destruct (follow_ok dt r H Hdt Hr HP n 0 b_new (new_inv dt r H)) as (rows & E & L & HR). exists rows. split; [|split; [exact L|exact HR]].
  unfold c_execute_trajectory. assert (Ln : length (ct_ts c) = n) by now rewrite Ets, map_length, seq_length.
  assert (Hnth : forall k, (k < n)%nat -> nth k (ct_ts c) 0 = t0 + INR k * dt).
  { intros k Hk. rewrite Ets. rewrite (nth_indep _ 0 (t0 + INR 0 * dt)) by now rewrite map_length, seq_length. rewrite (map_nth (fun k => t0 + INR k * dt)), seq_nth by trivial. reflexivity. }
  destruct (ct_ts c) as [|u0 [|u1 us]] eqn:Eu; [cbn in Ln; lia|cbn in Ln; lia|]. rewrite Ln. rewrite <- E. f_equal. apply map_ext_in. intros k Hk. apply in_seq in Hk.
  pose proof (Hh k ltac:(lia)) as (H1 & H2 & H3). cbv beta zeta. apply f_equal2.
  - destruct k as [|k].
    + pose proof (Hnth 0%nat ltac:(lia)) as X. pose proof (Hnth 1%nat ltac:(lia)) as Y. cbn [nth INR] in X, Y. rewrite X, Y. ring.
    + rewrite !Hnth by lia. rewrite S_INR. ring.
  - rewrite H1, H2, H3. destruct (H k) as [[y yd] ydd]. reflexivity.
Qed.

(** *** costs *)
Lemma throw_cost_ok t rows row : rows <> [] -> last rows [] = row -> (8 <= length row)%nat -> exists d a, throw_cost t rows = Ok [d + a; d; a] /\
  d = Rmax 0 (Rabs (nth 7 row 0 - x_goal t) - x_margin t) /\
  a = Rmax 0 (acc_weight t) * rsum (map (fun r => square (cols 5 2 r)) rows) / INR (length rows) /\ 0 <= d /\ 0 <= a.
Proof.
  intros Ne El L. unfold throw_cost. cbv zeta. rewrite El. destruct (skipn 7 row) as [|bx rest] eqn:Es.
  { apply (f_equal (@length R)) in Es. rewrite skipn_length in Es. cbn in Es. lia. }
  assert (En : nth 7 row 0 = bx). { rewrite <- (firstn_skipn 7 row) at 1. rewrite app_nth2 by (rewrite firstn_length; lia). rewrite Es, firstn_length. replace (7 - Nat.min 7 (length row))%nat with 0%nat by lia. reflexivity. }
  eexists _, _. split; [reflexivity|]. rewrite En. split; [unfold Rmax; destruct (Rlt_dec _ _), (Rle_dec _ _); lra|].
  fold (square). set (S := rsum (map (fun r => square (cols 5 2 r)) rows)).
  assert (HS : 0 <= S). { unfold S, square, rsum. clear. assert (Z : forall l : list R, (forall v, In v l -> 0 <= v) -> 0 <= fold_right Rplus 0 l) by (induction l as [|a l IH]; cbn; intros Hv; [lra|]; pose proof (Hv a (or_introl eq_refl)); pose proof (IH (fun v Hi => Hv v (or_intror Hi))); lra).
    apply Z. intros v Hv. apply in_map_iff in Hv. destruct Hv as (r & <- & _). apply Z. intros w Hw. apply in_map_iff in Hw. destruct Hw as (u & <- & _). nra. }
  assert (HL : 0 < INR (length rows)) by (apply lt_0_INR; destruct rows; [contradiction|cbn; lia]).
  assert (EA : acc_weight t * (if Rlt_dec 0 (acc_weight t) then S else 0) / INR (length rows) = Rmax 0 (acc_weight t) * S / INR (length rows)).
  { unfold Rmax. destruct (Rlt_dec 0 (acc_weight t)), (Rle_dec 0 (acc_weight t)); [reflexivity|lra|replace (acc_weight t) with 0 by lra; unfold Rdiv; ring|unfold Rdiv; ring]. }
  split; [exact EA|]. split; [destruct (Rlt_dec (Rabs (bx - x_goal t) - x_margin t) 0) as [X|X]; [apply Rle_refl|now apply Rnot_lt_le]|]. match goal with |- 0 <= ?x => change x with (acc_weight t * (if Rlt_dec 0 (acc_weight t) then S else 0) / INR (length rows)) end. rewrite EA. pose proof (Rmax_l 0 (acc_weight t)). apply Rmult_le_pos; [now apply Rmult_le_pos|left; now apply Rinv_0_lt_compat].
Qed.
Lemma throw_cost_err t rows : (length (last rows []) < 8)%nat -> throw_cost t rows = Err IndexError.
Proof. intros L. unfold throw_cost. cbv zeta. rewrite skipn_all2 by lia. reflexivity. Qed.
