(** Proofs about rollouts in a force field: bounds. *)
From Verif Require Import Base BaseLemmas DynModel DmpModel FieldModel FieldSpec FieldProofs.
Open Scope R_scope.

Section Scalar.
Variable a : R.
Hypothesis Ha : 0 < a < 1.
Let t := 2 - a - a * a.
Let d := 1 - a.
Let c := a / 2 * sqrt (4 - (1 + a)^2).

Lemma root_pos : 0 < 4 - (1 + a)^2.
Proof. nra. Qed.
Lemma c_pos : 0 < c.
Proof. unfold c. apply Rmult_lt_0_compat; [lra|]. apply sqrt_lt_R0, root_pos. Qed.
Lemma c_sq : c * c = d - t * t / 4.
Proof. pose proof root_pos as H. unfold c, d, t. replace (a / 2 * sqrt (4 - (1 + a)^2) * (a / 2 * sqrt (4 - (1 + a)^2))) with (a * a / 4 * (sqrt (4 - (1 + a)^2) * sqrt (4 - (1 + a)^2))) by field. rewrite sqrt_sqrt by lra. field. Qed.
Lemma d_root : 0 < sqrt d < 1.
Proof. split; [apply sqrt_lt_R0; unfold d; lra|]. rewrite <- sqrt_1. apply sqrt_lt_1; unfold d; lra. Qed.

(** a norm for two successive deviations *)
Definition q (x y : R) : R := dist_euc (y - t * x / 2) (c * x) 0 0.
Lemma q_sq x y : q x y = sqrt (y * y - t * x * y + d * (x * x)).
Proof.
  unfold q, dist_euc. f_equal. unfold Rsqr. replace ((c * x - 0) * (c * x - 0)) with ((c * c) * (x * x)) by ring. rewrite c_sq. field.
Qed.
Lemma q_pos x y : 0 <= q x y.
Proof. unfold q, dist_euc. apply sqrt_pos. Qed.
Lemma q_step x y : q y (t * y - d * x) = sqrt d * q x y.
Proof.
  rewrite !q_sq. rewrite <- sqrt_mult_alt by (unfold d; lra). f_equal. ring.
Qed.
Lemma q_push y z r : q y (z + r) <= q y z + Rabs r.
Proof.
  unfold q. pose proof (triangle (z + r - t * y / 2) (c * y) 0 0 (z - t * y / 2) (c * y)) as H.
  assert (E : dist_euc (z + r - t * y / 2) (c * y) (z - t * y / 2) (c * y) = Rabs r).
  { unfold dist_euc. replace (z + r - t * y / 2 - (z - t * y / 2)) with r by ring. replace (c * y - c * y) with 0 by ring.
    unfold Rsqr at 2. rewrite Rmult_0_l, Rplus_0_r. apply sqrt_Rsqr_abs. }
  rewrite E in H. lra.
Qed.
Lemma q_first x y : Rabs x <= q x y / c.
Proof.
  pose proof c_pos as Hc. apply (Rmult_le_reg_r c); [exact Hc|]. unfold Rdiv. rewrite Rmult_assoc, Rinv_l, Rmult_1_r by lra.
  unfold q, dist_euc. rewrite <- (Rabs_pos_eq c) at 1 by lra. rewrite <- Rabs_mult. rewrite <- sqrt_Rsqr_abs. apply sqrt_le_1_alt.
  unfold Rsqr. pose proof (Rle_0_sqr (y - t * x / 2 - 0)) as H. unfold Rsqr in H. nra.
Qed.
Lemma q_second x y : Rabs y <= q x y / c.
Proof.
  pose proof c_pos as Hc. pose proof d_root as Hd. pose proof (q_first y (t * y - d * x)) as H. rewrite q_step in H. eapply Rle_trans; [exact H|].
  unfold Rdiv. apply Rmult_le_compat_r; [left; now apply Rinv_0_lt_compat|]. pose proof (q_pos x y). nra.
Qed.
Lemma q_bound x y : q x y <= Rabs y + 2 * Rabs x.
Proof.
  rewrite q_sq. assert (Ht : 0 <= t <= 2) by (unfold t; nra). assert (Hd : 0 <= d <= 1) by (unfold d; lra).
  rewrite <- (sqrt_Rsqr (Rabs y + 2 * Rabs x)) by (pose proof (Rabs_pos x); pose proof (Rabs_pos y); lra).
  apply sqrt_le_1_alt. unfold Rsqr.
  assert (Ex : x * x = Rabs x * Rabs x) by (rewrite <- Rabs_mult; symmetry; apply Rabs_pos_eq; nra).
  assert (Ey : y * y = Rabs y * Rabs y) by (rewrite <- Rabs_mult; symmetry; apply Rabs_pos_eq; nra).
  assert (Exy : - (x * y) <= Rabs x * Rabs y) by (rewrite <- Rabs_mult; rewrite <- Rabs_Ropp; apply Rle_abs).
  pose proof (Rabs_pos x) as P. pose proof (Rabs_pos y) as Q. pose proof (Rmult_le_pos _ _ P Q) as PQ. pose proof (Rmult_le_pos _ _ P P) as PP.
  rewrite Ex, Ey. set (X := Rabs x) in *. set (Y := Rabs y) in *.
  assert (- t * x * y <= 2 * (X * Y)).
  { destruct (Rle_lt_dec 0 (- (x * y))); nra. }
  assert (d * (X * X) <= X * X) by nra. nra.
Qed.

(** sequences of deviations and of displacements in a time step *)
Variables e w r : nat -> R.
Variable n : nat.
Hypothesis Hw : forall k, (k < n)%nat -> w (S k) = (1 - a) * w k - a * a * e k + r k.
Hypothesis He : forall k, (k < n)%nat -> e (S k) = e k + w (S k).
Variable rho : R.
Hypothesis Hr : forall k, (k < n)%nat -> Rabs (r k) <= rho.

Lemma one_step k : (k < n)%nat -> q (e (S k) - w (S k)) (e (S k)) <= sqrt d * q (e k - w k) (e k) + rho.
Proof.
  intros Hk. rewrite (He k Hk), (Hw k Hk). replace (e k + ((1 - a) * w k - a * a * e k + r k) - ((1 - a) * w k - a * a * e k + r k)) with (e k) by ring.
  replace (e k + ((1 - a) * w k - a * a * e k + r k)) with ((t * e k - d * (e k - w k)) + r k) by (unfold t, d; ring).
  eapply Rle_trans; [apply q_push|]. rewrite q_step. pose proof (Hr k Hk). lra.
Qed.
Lemma steps k : (k <= n)%nat -> 0 <= rho -> q (e k - w k) (e k) <= sqrt d ^ k * q (e 0%nat - w 0%nat) (e 0%nat) + rho / (1 - sqrt d).
Proof.
  intros Hk Hrho. pose proof d_root as Hd. induction k as [|k IH].
  - cbn [pow]. rewrite Rmult_1_l. assert (0 <= rho / (1 - sqrt d)) by (apply Rmult_le_pos; [lra|left; apply Rinv_0_lt_compat; lra]). lra.
  - eapply Rle_trans; [apply one_step; lia|]. specialize (IH ltac:(lia)). cbn [pow].
    assert (E : rho / (1 - sqrt d) = sqrt d * (rho / (1 - sqrt d)) + rho) by (field; lra). rewrite E.
    pose proof (Rmult_le_compat_l (sqrt d) _ _ (Rlt_le _ _ (proj1 Hd)) IH). lra.
Qed.
Lemma deviation k : (k <= n)%nat -> 0 <= rho ->
  Rabs (e k) <= settling a * (Rabs (e 0%nat) + Rabs (w 0%nat)) * sqrt (1 - a) ^ k + rho / (a * a) * compliance a.
Proof.
  intros Hk Hrho. pose proof (steps k Hk Hrho) as H. pose proof (q_second (e k - w k) (e k)) as H2. pose proof c_pos as Hc. pose proof d_root as Hd.
  pose proof (q_bound (e 0%nat - w 0%nat) (e 0%nat)) as H3. pose proof (Rabs_triang (e 0%nat) (- w 0%nat)) as H4. rewrite Rabs_Ropp in H4.
  change (e 0%nat + - w 0%nat) with (e 0%nat - w 0%nat) in H4. fold d.
  set (X := Rabs (e 0%nat)) in *. set (Y := Rabs (w 0%nat)) in *. pose proof (Rabs_pos (e 0%nat) : 0 <= X) as PX. pose proof (Rabs_pos (w 0%nat) : 0 <= Y) as PY.
  assert (P : 0 < sqrt d ^ k) by (apply pow_lt; lra).
  assert (H5 : q (e k - w k) (e k) <= sqrt d ^ k * (3 * (X + Y)) + rho / (1 - sqrt d)).
  { eapply Rle_trans; [exact H|]. apply Rplus_le_compat_r, Rmult_le_compat_l; lra. }
  eapply Rle_trans; [exact H2|]. apply (Rmult_le_compat_r (/ c)) in H5; [|left; now apply Rinv_0_lt_compat].
  eapply Rle_trans; [exact H5|]. apply Req_le. unfold settling, compliance. fold d. pose proof (sqrt_lt_R0 _ root_pos) as Hs.
  unfold c. field. repeat split; lra.
Qed.
End Scalar.

Lemma pull_bound s mt t : 0 < mt -> Rabs (pull s mt t) <= Rabs s.
Proof.
  intros Hm. unfold pull. rewrite Rabs_mult. rewrite <- (Rmult_1_r (Rabs s)) at 2. apply Rmult_le_compat_l; [apply Rabs_pos|].
  rewrite Rabs_pos_eq by (left; apply exp_pos). rewrite <- exp_0. 
  assert (H : - (t - mt)^2 / (0.1 * mt) <= 0).
  { unfold Rdiv. assert (0 < / (0.1 * mt)) by (apply Rinv_0_lt_compat; lra). pose proof (pow2_ge_0 (t - mt)). nra. }
  destruct H as [H| ->]; [left; now apply exp_increasing|right; reflexivity].
Qed.

Section Rollout.
Variable S : Type.
Variable dim : nat.
Variable start : res (S * wish).
Variable step : R -> S -> res (S * wish).
Notation roll := (field_rollout S dim start step).
Variables T s mt g : R.
Variable n : Z.
Let dt := T / (IZR n - 1).
Let a := stiffness dt g.
Hypothesis Hm : 0 < mt.
Hypothesis Hg : 0 < g.
Hypothesis Ha : 0 < a < 1.
Variable rows : list frow.
Hypothesis E : roll T n s mt = Ok rows.
Hypothesis Cg : constant_gain dim g rows.

Lemma a_sq : a * a = dt * dt * g.
Proof. unfold a, stiffness. replace (dt * sqrt g * (dt * sqrt g)) with (dt * dt * (sqrt g * sqrt g)) by ring. now rewrite sqrt_sqrt by lra. Qed.
Lemma dt_pos : 0 < dt.
Proof. destruct Ha as [H _]. unfold a, stiffness in H. pose proof (sqrt_lt_R0 g Hg). nra. Qed.
Lemma rho_g u : dt * dt * u / (a * a) = u / g.
Proof. rewrite a_sq. pose proof dt_pos. field. split; lra. Qed.

(** how much the force moves the robot *)
Lemma force_bound rows0 k i : roll T n 0 mt = Ok rows0 -> (k < length rows)%nat -> (i < dim)%nat ->
  Rabs (pos (row_at rows k) i - pos (row_at rows0 k) i) <= compliance a * (Rabs s / g).
Proof.
  intros E0 Hk Hi.
  destruct (roll_inv S dim start step _ _ _ _ _ Hm E) as (_ & L & _ & (Y & V & _ & _) & D). destruct (roll_inv S dim start step _ _ _ _ _ Hm E0) as (_ & L0 & _ & (Y0 & V0 & _ & _) & D0).
  fold dt in D, D0.
  assert (W : forall j, (j < length rows)%nat -> u_des (row_at rows0 j) = u_des (row_at rows j) /\ u_t (row_at rows0 j) = u_t (row_at rows j)).
  { intros j. apply (proj2 (roll_same_wishes S dim start step _ _ _ _ _ _ _ _ j Hm Hm E E0)). }
  set (e := fun j => pos (row_at rows j) i - pos (row_at rows0 j) i).
  set (w := fun j => dt * (vel (row_at rows j) i - vel (row_at rows0 j) i)).
  set (r := fun j => dt * dt * pull s mt (u_t (row_at rows (Datatypes.S j)))).
  assert (St : forall j, (j < length rows - 1)%nat -> w (Datatypes.S j) = (1 - a) * w j - a * a * e j + r j /\ e (Datatypes.S j) = e j + w (Datatypes.S j)).
  { intros j Hj. destruct (D j ltac:(lia)) as (F & _ & _ & _ & Q). destruct (Q i Hi) as (Qa & Qv & Qp). destruct (D0 j ltac:(lia)) as (F0 & _ & _ & _ & Q0). destruct (Q0 i Hi) as (Qa0 & Qv0 & Qp0).
    destruct (W (Datatypes.S j) ltac:(lia)) as [Wd Wt]. pose proof (Cg (Datatypes.S j) i ltac:(lia) Hi) as G.
    assert (G0 : gain (row_at rows0 (Datatypes.S j)) i = g) by (unfold gain in *; now rewrite Wd).
    assert (Z0 : u_field (row_at rows0 (Datatypes.S j)) = 0) by (rewrite F0; unfold pull; ring).
    unfold w, e, r. rewrite Qp, Qp0, Qv, Qv0, Qa, Qa0, Z0, F, G, G0. unfold acc_des, pos_des, vel_des. rewrite Wd, a_sq. unfold a, stiffness. split; ring. }
  destruct (W 0%nat ltac:(lia)) as [W0 _].
  assert (I1 : e 0%nat = 0) by (unfold e, pos; rewrite Y, Y0, W0; ring). assert (I2 : w 0%nat = 0) by (unfold w, vel; rewrite V, V0, W0; ring).
  pose proof (deviation a Ha e w r (length rows - 1) (fun j Hj => proj1 (St j Hj)) (fun j Hj => proj2 (St j Hj)) (dt * dt * Rabs s)) as B.
  change (pos (row_at rows k) i - pos (row_at rows0 k) i) with (e k).
  eapply Rle_trans; [apply B|].
  - intros j Hj. unfold r. rewrite Rabs_mult, (Rabs_pos_eq (dt * dt)) by nra. apply Rmult_le_compat_l; [nra|now apply pull_bound].
  - lia.
  - pose proof (Rabs_pos s). nra.
  - rewrite I1, I2, Rabs_R0, rho_g. apply Req_le. ring.
Qed.
(** how the robot settles *)
Lemma settles k0 k i y : rests dim k0 y rows -> (k0 <= k < length rows)%nat -> (i < dim)%nat ->
  Rabs (pos (row_at rows k) i - nth i y 0) <=
    settling a * (Rabs (pos (row_at rows k0) i - nth i y 0) + dt * Rabs (vel (row_at rows k0) i)) * sqrt (1 - a) ^ (k - k0) + compliance a * (Rabs s / g).
Proof.
  intros Rs Hk Hi.
  destruct (roll_inv S dim start step _ _ _ _ _ Hm E) as (_ & L & _ & _ & D). fold dt in D.
  set (e := fun j => pos (row_at rows (k0 + j)) i - nth i y 0).
  set (w := fun j => dt * vel (row_at rows (k0 + j)) i).
  set (r := fun j => dt * dt * pull s mt (u_t (row_at rows (Datatypes.S (k0 + j))))).
  assert (St : forall j, (j < length rows - k0 - 1)%nat -> w (Datatypes.S j) = (1 - a) * w j - a * a * e j + r j /\ e (Datatypes.S j) = e j + w (Datatypes.S j)).
  { intros j Hj. destruct (D (k0 + j)%nat ltac:(lia)) as (F & _ & _ & _ & Q). destruct (Q i Hi) as (Qa & Qv & Qp).
    destruct (Rs (Datatypes.S (k0 + j)) i ltac:(lia) Hi) as (R1 & R2 & R3). pose proof (Cg (Datatypes.S (k0 + j)) i ltac:(lia) Hi) as G.
    unfold w, e, r. replace (k0 + Datatypes.S j)%nat with (Datatypes.S (k0 + j)) by lia. rewrite Qp, Qv, Qa, F, G, R1, R2, R3, a_sq. unfold a, stiffness. split; ring. }
  pose proof (deviation a Ha e w r (length rows - k0 - 1) (fun j Hj => proj1 (St j Hj)) (fun j Hj => proj2 (St j Hj)) (dt * dt * Rabs s)) as B.
  assert (Ek : pos (row_at rows k) i - nth i y 0 = e (k - k0)%nat) by (unfold e; now replace (k0 + (k - k0))%nat with k by lia).
  rewrite Ek. pose proof dt_pos as Hdt. eapply Rle_trans; [apply B|].
  - intros j Hj. unfold r. rewrite Rabs_mult, (Rabs_pos_eq (dt * dt)) by nra. apply Rmult_le_compat_l; [nra|now apply pull_bound].
  - lia.
  - pose proof (Rabs_pos s). nra.
  - rewrite rho_g. unfold e at 1, w at 1. rewrite Nat.add_0_r, Rabs_mult, (Rabs_pos_eq dt) by lra. apply Req_le. ring.
Qed.
(** how well the robot follows *)
Lemma tracks V A k i : consistent dim dt rows -> moderate dim V A rows -> (k < length rows)%nat -> (i < dim)%nat ->
  Rabs (pos (row_at rows k) i - pos_des (row_at rows k) i) <= compliance a * (dt * V + dt * A / sqrt g + Rabs s / g).
Proof.
  intros Cs Md Hk Hi.
  destruct (roll_inv S dim start step _ _ _ _ _ Hm E) as (_ & L & _ & (Y & V0 & _ & _) & D). fold dt in D.
  set (e := fun j => pos (row_at rows j) i - pos_des (row_at rows j) i).
  set (w := fun j => dt * (vel (row_at rows j) i - vel_des (row_at rows j) i)).
  set (r := fun j => let q := row_at rows (Datatypes.S j) in dt * dt * (g * dt * vel_des q i + sqrt g * dt * acc_des q i + pull s mt (u_t q))).
  assert (St : forall j, (j < length rows - 1)%nat -> w (Datatypes.S j) = (1 - a) * w j - a * a * e j + r j /\ e (Datatypes.S j) = e j + w (Datatypes.S j)).
  { intros j Hj. destruct (D j ltac:(lia)) as (F & _ & _ & _ & Q). destruct (Q i Hi) as (Qa & Qv & Qp).
    destruct (Cs j i ltac:(lia) Hi) as (C1 & C2). cbv zeta in C1, C2. pose proof (Cg (Datatypes.S j) i ltac:(lia) Hi) as G.
    unfold w, e, r. rewrite Qp, Qv, Qa, F, G, C2, C1, a_sq. unfold a, stiffness. split; ring. }
  assert (I1 : e 0%nat = 0) by (unfold e, pos, pos_des; rewrite Y; ring). assert (I2 : w 0%nat = 0) by (unfold w, vel, vel_des; rewrite V0; ring).
  pose proof dt_pos as Hdt. pose proof (sqrt_lt_R0 g Hg) as Hs. destruct (Md 0%nat i ltac:(lia) Hi) as [M1 M2].
  pose proof (Rabs_pos (vel_des (row_at rows 0) i)) as P1. pose proof (Rabs_pos (acc_des (row_at rows 0) i)) as P2.
  set (u := g * dt * V + sqrt g * dt * A + Rabs s).
  assert (Hu : 0 <= u).
  { unfold u. pose proof (Rabs_pos s). pose proof (Rmult_le_pos (g * dt) V). pose proof (Rmult_le_pos (sqrt g * dt) A). nra. }
  pose proof (deviation a Ha e w r (length rows - 1) (fun j Hj => proj1 (St j Hj)) (fun j Hj => proj2 (St j Hj)) (dt * dt * u)) as B.
  change (pos (row_at rows k) i - pos_des (row_at rows k) i) with (e k). eapply Rle_trans; [apply B|].
  - intros j Hj. unfold r. cbv zeta. rewrite Rabs_mult, (Rabs_pos_eq (dt * dt)) by nra. apply Rmult_le_compat_l; [nra|].
    destruct (Md (Datatypes.S j) i ltac:(lia) Hi) as [M3 M4]. set (q := row_at rows (Datatypes.S j)) in *.
    eapply Rle_trans; [apply Rabs_triang|]. unfold u. apply Rplus_le_compat; [|now apply pull_bound].
    eapply Rle_trans; [apply Rabs_triang|]. apply Rplus_le_compat; rewrite Rabs_mult; rewrite (Rabs_pos_eq (_ * dt)) by nra; apply Rmult_le_compat_l; trivial; nra.
  - lia.
  - nra.
  - assert (Eu : u / g = dt * V + dt * A / sqrt g + Rabs s / g).
    { unfold u. assert (Gg : g = sqrt g * sqrt g) by (rewrite sqrt_sqrt; lra). set (h := sqrt g) in *. clearbody h. rewrite Gg. field. lra. }
    rewrite I1, I2, Rabs_R0, rho_g, Eu. apply Req_le. ring.
Qed.
End Rollout.
