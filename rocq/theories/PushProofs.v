(** Disturbed executions. *)
From Coq Require Import String Lia Lra.
From Verif Require Import Base BaseLemmas DynModel DynSpec DynProofs ParamModel DmpModel DmpSpec DmpSpec2 DmpProofs14 DmpProofs19 IntModel PushSpec.
Open Scope R_scope.

Section Push.
Variable pf : nat -> list (string * pval) -> R -> res R.
Variable m : dmp.
Variable i : nat.
Variable a : R.
Hypothesis W : wf pf m.
Hypothesis Hi : (i < m_dim m)%nat.
Hypothesis Cr : critically m i a.

(** two vectors with the same rest, u and v apart in dimension i *)
Definition apart (u v : R) (x x' : list R) : Prop := pushed m x x' /\ dpos i x x' = u /\ dvel m i x x' = v.

Lemma part_ext o l x x' : (2 * m_dim m <= o)%nat -> (forall j, (2 * m_dim m <= j)%nat -> nth j x' 0 = nth j x 0) -> part o l x' = part o l x.
Proof. intros Ho H. apply map_ext. intros j. apply H. lia. Qed.

Lemma rate_apart m1 m2 m3 u v x x' xd : touched m m1 -> touched m m2 -> apart u v x x' -> m_diffeq pf m1 x = Ok (m3, xd) ->
  touched m m3 /\ exists m4 xd', m_diffeq pf m2 x' = Ok (m4, xd') /\ touched m m4 /\
    apart (v / m_tau m) ((- (a * a) * u - 2 * a * v) / m_tau m) xd xd'.
Proof.
  intros T1 T2 ((Lx & Lx' & Hs) & Hu & Hv) E. split; [exact (touched_trans _ _ _ T1 (diffeq_touch pf _ _ _ _ E))|].
  rewrite (touch_diffeq pf m m1 x T1) in E. rewrite (touch_diffeq pf m m2 x' T2).
  destruct (proj1 (equation_iff pf m W x xd Lx) (ex_intro _ _ E)) as (Ld & gd & pd & ad & cd & Sr & Ep & Ea & He).
  set (n := m_dim m) in *.
  set (G := fun j => (- par_val (d_spring (m_spring m)) j * (nth j x' 0 - goal_now m x' j) - damping_now m x' j * nth (n + j) x' 0)
        / par_val (d_mass (m_spring m)) j + forcing_now pf m x' j).
  set (xd' := map (fun j => if Nat.ltb j n then nth (n + j) x' 0 / m_tau m else if Nat.ltb j (2 * n) then G (j - n)%nat / m_tau m else nth j xd 0) (seq 0 (dim_x m))).
  assert (Ht : m_tau m <> 0) by apply W.
  assert (Ld' : length xd' = dim_x m) by (unfold xd'; now rewrite map_length, seq_length).
  assert (Dx : (2 * n <= dim_x m)%nat) by (unfold dim_x; fold n; lia).
  assert (Nx : forall j, (j < dim_x m)%nat -> nth j xd' 0 = if Nat.ltb j n then nth (n + j) x' 0 / m_tau m else if Nat.ltb j (2 * n) then G (j - n)%nat / m_tau m else nth j xd 0).
  { intros j Hj. unfold xd'. exact (nth_map_seq _ _ _ _ Hj). }
  assert (N1 : forall j, (j < n)%nat -> nth j xd' 0 = nth (n + j) x' 0 / m_tau m).
  { intros j Hj. rewrite Nx by lia. now rewrite (proj2 (Nat.ltb_lt j n) Hj). }
  assert (N2 : forall j, (j < n)%nat -> nth (n + j) xd' 0 = G j / m_tau m).
  { intros j Hj. rewrite Nx by lia. rewrite (proj2 (Nat.ltb_ge (n + j) n)) by lia. rewrite (proj2 (Nat.ltb_lt (n + j) (2 * n))) by lia. do 2 f_equal. lia. }
  assert (N3 : forall j, (2 * n <= j)%nat -> nth j xd' 0 = nth j xd 0).
  { intros j Hj. destruct (Nat.ltb_spec j (dim_x m)) as [H|H]; [|now rewrite !nth_overflow by lia].
    rewrite Nx by lia. rewrite (proj2 (Nat.ltb_ge j n)) by lia. now rewrite (proj2 (Nat.ltb_ge j (2 * n))) by lia. }
  assert (Eq : equation pf m x' xd').
  { split; [exact Ld'|]. exists gd, pd, ad, cd. fold n. split.
    - unfold subsystem_rates in *. fold n in Sr |- *. rewrite (part_ext (2 * n) n x x'), (part_ext (3 * n + 2) n x x'), !Hs by (trivial; fold n; lia). exact Sr.
    - split; [rewrite N3 by lia; exact Ep|]. split; [rewrite N3 by lia; exact Ea|]. intros j Hj. destruct (He j Hj) as (_ & _ & H3 & H4). fold n in H3, H4.
      split; [rewrite (N1 j Hj); field; exact Ht|]. split; [rewrite (N2 j Hj); change (m_tau m * (G j / m_tau m) = G j); field; exact Ht|].
      rewrite !N3 by lia. now split. }
  destruct (proj2 (equation_iff pf m W x' xd' Lx') Eq) as (m4 & E4). exists m4, xd'. split; [exact E4|]. split; [exact (diffeq_touch pf _ _ _ _ E4)|].
  split; [now repeat split|]. destruct (He i Hi) as (H1 & H2 & _ & _). fold n in H1, H2. unfold dpos, dvel in *. fold n in Hv |- *. rewrite (N1 i Hi), (N2 i Hi). split.
  - rewrite <- Hv. replace (nth i xd 0) with (nth (n + i) x 0 / m_tau m) by (rewrite <- H1; field; exact Ht). field. exact Ht.
  - assert (Eg : goal_now m x' i = goal_now m x i) by (unfold goal_now; fold n; now rewrite Hs by (fold n; lia)).
    assert (Ef : forcing_now pf m x' i = forcing_now pf m x i) by (unfold forcing_now; fold n; now rewrite !Hs by (fold n; lia)).
    destruct Cr as (C1 & C2 & C3). set (M := par_val (d_mass (m_spring m)) i) in *. assert (HM : M <> 0) by now apply W.
    assert (Ed : forall y, damping_now m y i = 2 * M * a) by (intros y; unfold damping_now; now rewrite C1).
    assert (E2 : nth (n + i) xd 0 = ((- par_val (d_spring (m_spring m)) i * (nth i x 0 - goal_now m x i) - damping_now m x i * nth (n + i) x 0) / M + forcing_now pf m x i) / m_tau m)
      by (rewrite <- H2; field; exact Ht).
    rewrite E2. unfold G. fold M. rewrite Eg, Ef, !Ed, C3. rewrite <- Hu, <- Hv. field. split; assumption.
Qed.

Lemma comb_apart f c u v p q x x' k k' y : (forall r, f r = c * r) -> apart u v x x' -> apart p q k k' -> vop Rplus x (map f k) = Ok y ->
  exists y', vop Rplus x' (map f k') = Ok y' /\ apart (u + c * p) (v + c * q) y y'.
Proof.
  intros Hf ((L1 & L2 & H1) & U1 & V1) ((L3 & L4 & H2) & U2 & V2) E.
  rewrite vop_same in E by (rewrite map_length; congruence). apply (f_equal (fun r => match r with Ok l => l | Err _ => y end)) in E. subst y.
  rewrite vop_same by (rewrite map_length; congruence). eexists. split; [reflexivity|].
  assert (N : forall a b j, length a = dim_x m -> length b = dim_x m -> nth j (map2 Rplus a (map f b)) 0 = nth j a 0 + c * nth j b 0).
  { intros l b j La Lb. destruct (Nat.ltb_spec j (dim_x m)) as [H|H].
    - rewrite (nth_map2 Rplus l (map f b) j 0 0 0) by (try rewrite map_length; lia). rewrite (nth_indep (map f b) 0 (f 0)) by (rewrite map_length; lia). rewrite map_nth, Hf. reflexivity.
    - rewrite (nth_overflow (map2 _ _ _)) by (rewrite map2_length, map_length; lia). rewrite !nth_overflow by lia. ring. }
  assert (L : forall a b, length a = dim_x m -> length b = dim_x m -> length (map2 Rplus a (map f b)) = dim_x m) by (intros; rewrite map2_length, map_length; lia).
  split; [split; [now apply L|]; split; [now apply L|]; intros j Hj; rewrite !N by assumption; now rewrite H1, H2|].
  unfold dpos, dvel in *. rewrite !N by assumption. split; [rewrite <- U1, <- U2; ring|rewrite <- V1, <- V2; ring].
Qed.
Lemma sum_apart u v p q x x' k k' y : apart u v x x' -> apart p q k k' -> vop Rplus x k = Ok y ->
  exists y', vop Rplus x' k' = Ok y' /\ apart (u + p) (v + q) y y'.
Proof.
  intros A B E. rewrite <- (map_id k) in E. destruct (comb_apart (fun r => r) 1 u v p q x x' k k' y (fun r => eq_sym (Rmult_1_l r)) A B E) as (y' & E' & C). rewrite map_id in E'.
  exists y'. split; [exact E'|]. now rewrite !Rmult_1_l in C.
Qed.

Lemma step_apart me dt m1 m2 m3 u v x x' y xd : touched m m1 -> touched m m2 -> apart u v x x' -> m_step pf me m1 dt x = Ok (m3, y, xd) ->
  let h := dt / m_tau m in
  touched m m3 /\ exists m4 y' xd', m_step pf me m2 dt x' = Ok (m4, y', xd') /\ touched m m4 /\
    exists u' v', apart u' v' y y' /\ u' = decay me (a * h) * u + h * gain me (a * h) * (v + a * u) /\ v' + a * u' = decay me (a * h) * (v + a * u).
Proof.
  intros T1 T2 A E h. assert (Ht : m_tau m <> 0) by apply W. pose proof A as ((Lx & Lx' & _) & _).
  assert (D : forall k, touched m k -> dim_x k = dim_x m).
  { intros k (p & q & g & -> & _ & Hg). unfold dim_x, d_goal, upd_spring. cbn. reflexivity. }
  destruct me; unfold m_step, m_step_rk, m_step_euler in *; rewrite (D m1 T1), Lx, Nat.eqb_refl in E; rewrite (D m2 T2), Lx', Nat.eqb_refl.
  - destruct (m_diffeq pf m1 x) as [[n1 k1]|] eqn:E1; [|discriminate]. cbn [bind] in E.
    destruct (rate_apart m1 m2 _ _ _ _ _ _ T1 T2 A E1) as (S1 & p1 & k1' & -> & Q1 & A1). cbn [bind].
    destruct (vop Rplus x (map (Rmult (dt * 0.5)) k1)) as [i2|] eqn:E2; [|discriminate]. cbn [bind] in E.
    destruct (comb_apart _ (dt * 0.5) _ _ _ _ _ _ _ _ _ ltac:(reflexivity) A A1 E2) as (i2' & -> & B2). cbn [bind].
    destruct (m_diffeq pf n1 i2) as [[n2 k2]|] eqn:E3; [|discriminate]. cbn [bind] in E.
    destruct (rate_apart _ _ _ _ _ _ _ _ S1 Q1 B2 E3) as (S2 & p2 & k2' & -> & Q2 & A2). cbn [bind].
    destruct (vop Rplus x (map (Rmult (dt * 0.5)) k2)) as [i3|] eqn:E4; [|discriminate]. cbn [bind] in E.
    destruct (comb_apart _ (dt * 0.5) _ _ _ _ _ _ _ _ _ ltac:(reflexivity) A A2 E4) as (i3' & -> & B3). cbn [bind].
    destruct (m_diffeq pf n2 i3) as [[n3 k3]|] eqn:E5; [|discriminate]. cbn [bind] in E.
    destruct (rate_apart _ _ _ _ _ _ _ _ S2 Q2 B3 E5) as (S3 & p3 & k3' & -> & Q3 & A3). cbn [bind].
    destruct (vop Rplus x (map (Rmult dt) k3)) as [i4|] eqn:E6; [|discriminate]. cbn [bind] in E.
    destruct (comb_apart _ dt _ _ _ _ _ _ _ _ _ ltac:(reflexivity) A A3 E6) as (i4' & -> & B4). cbn [bind].
    destruct (m_diffeq pf n3 i4) as [[n4 k4]|] eqn:E7; [|discriminate]. cbn [bind] in E.
    destruct (rate_apart _ _ _ _ _ _ _ _ S3 Q3 B4 E7) as (S4 & p4 & k4' & -> & Q4 & A4). cbn [bind].
    destruct (vop Rplus k2 k3) as [s23|] eqn:E8; [|discriminate]. cbn [bind] in E.
    destruct (sum_apart _ _ _ _ _ _ _ _ _ A2 A3 E8) as (s23' & -> & C1). cbn [bind].
    destruct (vop Rplus k1 (map (Rmult 2) s23)) as [s123|] eqn:E9; [|discriminate]. cbn [bind] in E.
    destruct (comb_apart _ 2 _ _ _ _ _ _ _ _ _ ltac:(reflexivity) A1 C1 E9) as (s123' & -> & C2). cbn [bind].
    destruct (vop Rplus s123 k4) as [s|] eqn:E10; [|discriminate]. cbn [bind] in E.
    destruct (sum_apart _ _ _ _ _ _ _ _ _ C2 A4 E10) as (s' & -> & C3). cbn [bind].
    destruct (vop Rplus x (map (fun v => dt * v / 6) s)) as [y1|] eqn:E11; [|discriminate]. cbn [bind] in E.
    destruct (comb_apart (fun v => dt * v / 6) (dt / 6) _ _ _ _ _ _ _ _ _ ltac:(intros r; cbv beta; field) A C3 E11) as (y1' & -> & C4). cbn [bind].
    destruct (m_diffeq pf n4 y1) as [[n5 xd1]|] eqn:E12; [|discriminate]. cbn [bind] in E.
    destruct (rate_apart _ _ _ _ _ _ _ _ S4 Q4 C4 E12) as (S5 & p5 & xd1' & -> & Q5 & _). cbn [bind].
    injection E as <- <- <-. split; [exact S5|]. do 3 eexists. split; [reflexivity|]. split; [exact Q5|]. do 2 eexists. split; [exact C4|].
    assert (Eh : dt = h * m_tau m) by (unfold h; field; exact Ht). rewrite Eh. replace 0.5 with (/ 2) by lra. clear - Ht. unfold decay, gain. split; field; exact Ht.
  - destruct (m_diffeq pf m1 x) as [[n1 k1]|] eqn:E1; [|discriminate]. cbn [bind] in E.
    destruct (rate_apart m1 m2 _ _ _ _ _ _ T1 T2 A E1) as (S1 & p1 & k1' & -> & Q1 & A1). cbn [bind].
    destruct (vop Rplus x (map (Rmult dt) k1)) as [i2|] eqn:E2; [|discriminate]. cbn [bind] in E.
    destruct (comb_apart _ dt _ _ _ _ _ _ _ _ _ ltac:(reflexivity) A A1 E2) as (i2' & -> & B2). cbn [bind].
    injection E as <- <- <-. split; [exact S1|]. do 3 eexists. split; [reflexivity|]. split; [exact Q1|]. do 2 eexists. split; [exact B2|].
    unfold decay, gain, h. split; field; exact Ht.
Qed.

Lemma steps_apart me dt k : forall m1 m2 m3 u v x x' y, touched m m1 -> touched m m2 -> apart u v x x' -> steps pf me m1 dt x k = Ok (m3, y) ->
  let h := dt / m_tau m in let r := decay me (a * h) in
  touched m m3 /\ exists m4 y', steps pf me m2 dt x' k = Ok (m4, y') /\ touched m m4 /\
    exists u' v', apart u' v' y y' /\ u' = r ^ k * u + INR k * h * gain me (a * h) * r ^ pred k * (v + a * u) /\ v' + a * u' = r ^ k * (v + a * u).
Proof.
  induction k as [|k IH]; intros m1 m2 m3 u v x x' y T1 T2 A E h r; cbn [steps] in *.
  - injection E as <- <-. split; [exact T1|]. do 2 eexists. split; [reflexivity|]. split; [exact T2|]. exists u, v. split; [exact A|]. cbn [INR pow pred]. split; ring.
  - destruct (m_step pf me m1 dt x) as [[[n1 y1] xd1]|] eqn:E1; [|discriminate]. cbn [bind fst snd] in E.
    destruct (step_apart me dt _ _ _ _ _ _ _ _ _ T1 T2 A E1) as (S1 & m4 & y1' & xd1' & -> & S2 & u1 & v1 & A1 & U1 & V1). cbn [bind fst snd].
    destruct (IH _ _ _ _ _ _ _ _ S1 S2 A1 E) as (S3 & m5 & y' & E5 & S5 & u' & v' & A' & U' & V'). fold h in U1, V1, U', V'. fold r in U1, V1, U', V'.
    split; [exact S3|]. exists m5, y'. split; [exact E5|]. split; [exact S5|]. exists u', v'. split; [exact A'|]. split; [|rewrite V', V1; cbn [pow]; ring].
    rewrite U', V1, U1. destruct k as [|k]; [cbn [INR pow pred]; ring|]. rewrite (S_INR (S k)). cbn [pred]. cbn [pow]. ring.
Qed.
End Push.

(** ** the disturbance after k steps *)
Lemma touched_dim m m1 : touched m m1 -> dim_x m1 = dim_x m /\ m_dim m1 = m_dim m /\ m_tau m1 = m_tau m.
Proof. intros (p & q & g & -> & _ & _). now repeat split. Qed.
Lemma steps_length pf me m dt x k m1 y : steps pf me m dt x k = Ok (m1, y) -> length y = dim_x m -> length x = dim_x m.
Proof.
  destruct k as [|k]; cbn [steps]; intros E L; [now injection E as _ <-|]. destruct (m_step pf me m dt x) as [p|] eqn:Ep; [|discriminate].
  destruct me; unfold m_step, m_step_rk, m_step_euler in Ep; destruct (Nat.eqb_spec (length x) (dim_x m)); trivial; discriminate.
Qed.
Lemma push_formula pf me m dt x0 j m1 x x' k m2 y i a : wf pf m -> (i < m_dim m)%nat -> critically m i a ->
  steps pf me m dt x0 j = Ok (m1, x) -> pushed m x x' -> steps pf me m1 dt x k = Ok (m2, y) ->
  let h := dt / m_tau m in let r := decay me (a * h) in let w := dvel m i x x' + a * dpos i x x' in
  exists m2' y', steps pf me m1 dt x' k = Ok (m2', y') /\ pushed m y y' /\
    dpos i y y' = r ^ k * dpos i x x' + INR k * h * gain me (a * h) * r ^ pred k * w /\ dvel m i y y' + a * dpos i y y' = r ^ k * w.
Proof.
  intros W Hi Cr E0 P E h r w. pose proof (steps_length _ _ _ _ _ _ _ _ E0 (proj1 P)) as L0.
  assert (A0 : apart m i 0 0 x0 x0) by (split; [now repeat split|unfold dpos, dvel; split; ring]).
  destruct (steps_apart pf m i a W Hi Cr me dt j m m _ _ _ _ _ _ (touched_refl m) (touched_refl m) A0 E0) as (T1 & _).
  destruct (steps_apart pf m i a W Hi Cr me dt k m1 m1 _ _ _ _ _ _ T1 T1 (conj P (conj eq_refl eq_refl)) E) as (_ & m4 & y' & E4 & _ & u' & v' & (Py & <- & <-) & U & V).
  exists m4, y'. split; [exact E4|]. split; [exact Py|]. split; [exact U|exact V].
Qed.

(** ** it vanishes *)
Lemma decay_small me u : 0 < u < 2 -> Rabs (decay me u) < 1.
Proof.
  intros [H1 H2]. apply Rabs_def1; destruct me; cbn [decay]; try lra.
  - assert (0 < u * ((1 - u / 2) + u ^ 2 / 6 * (1 - u / 4))).
    { apply Rmult_lt_0_compat; [exact H1|]. assert (0 <= u ^ 2 / 6 * (1 - u / 4)) by (apply Rmult_le_pos; [assert (0 <= u ^ 2) by apply pow2_ge_0; lra|lra]). lra. }
    replace (u * ((1 - u / 2) + u ^ 2 / 6 * (1 - u / 4))) with (u - u ^ 2 / 2 + u ^ 3 / 6 - u ^ 4 / 24) in H by field. lra.
  - assert (0 <= u ^ 2) by apply pow2_ge_0. assert (0 <= u ^ 4) by (replace (u ^ 4) with (u ^ 2 * u ^ 2) by ring; now apply Rmult_le_pos).
    assert (u ^ 3 <= 2 * u ^ 2) by (replace (u ^ 3) with (u * u ^ 2) by ring; apply Rmult_le_compat_r; lra). lra.
Qed.
Lemma linear_geometric q : 0 <= q < 1 -> forall eps, 0 < eps -> exists K, forall k, (K <= k)%nat -> INR k * q ^ pred k <= eps /\ q ^ k <= eps.
Proof.
  intros [H0 H1] eps He.
  destruct (Req_dec q 0) as [->|Hq].
  { exists 2%nat. intros [|[|k]] Hk; try lia. cbn [pred]. rewrite !pow_ne_zero by lia. rewrite Rmult_0_r. lra. }
  set (s := sqrt q). assert (Hs : 0 < s) by (apply sqrt_lt_R0; lra).
  assert (Es : s * s = q) by (apply sqrt_sqrt; lra).
  assert (S1 : s < 1). { destruct (Rlt_le_dec s 1) as [H|H]; [exact H|]. assert (1 * 1 <= s * s) by (apply Rmult_le_compat; lra). lra. }
  set (t := / s - 1). assert (Ht : 0 < t). { unfold t. assert (/ 1 < / s) by (apply Rinv_lt_contravar; lra). rewrite Rinv_1 in H. lra. }
  assert (Pk : forall k, INR k * s ^ k <= / t).
  { intros k. apply (Rmult_le_reg_l t); [exact Ht|]. rewrite Rinv_r by lra.
    pose proof (poly k t Ht) as P. replace (1 + t) with (/ s) in P by (unfold t; ring). rewrite pow_inv in P.
    assert (Hk : 0 < s ^ k) by now apply pow_lt. apply (Rmult_le_compat_r (s ^ k)) in P; [|lra]. rewrite Rinv_l in P by lra. lra. }
  destruct (pow_lt_1_zero s ltac:(rewrite Rabs_pos_eq; lra) (Rmin 1 (eps * t * q)) ltac:(apply Rmin_glb_lt; [lra|repeat apply Rmult_lt_0_compat; lra])) as [K1 HK1].
  destruct (pow_lt_1_zero q ltac:(rewrite Rabs_pos_eq; lra) eps He) as [K2 HK2].
  exists (S (Nat.max K1 K2)). intros [|k] Hk; [lia|]. split.
  - cbn [pred]. specialize (HK1 (S k) ltac:(lia)). rewrite Rabs_pos_eq in HK1 by (apply pow_le; lra). pose proof (Rmin_r 1 (eps * t * q)) as Mr.
    apply (Rmult_le_reg_r q); [lra|]. rewrite Rmult_assoc. replace (q ^ k * q) with (s ^ S k * s ^ S k) by (rewrite <- Rpow_mult_distr, Es; cbn [pow]; ring).
    rewrite <- Rmult_assoc. apply Rle_trans with (/ t * s ^ S k); [apply Rmult_le_compat_r; [apply pow_le; lra|apply Pk]|].
    apply (Rmult_le_reg_l t); [exact Ht|]. rewrite <- Rmult_assoc, Rinv_r by lra. rewrite Rmult_1_l. replace (t * (eps * q)) with (eps * t * q) by ring. lra.
  - specialize (HK2 (S k) ltac:(lia)). rewrite Rabs_pos_eq in HK2 by (apply pow_le; lra). lra.
Qed.

Lemma forgotten pf me m dt x0 j m1 x x' i a : wf pf m -> (i < m_dim m)%nat -> critically m i a ->
  0 < a * dt / m_tau m < 2 -> steps pf me m dt x0 j = Ok (m1, x) -> pushed m x x' ->
  forall eps, 0 < eps -> exists K, forall k m2 y, (K <= k)%nat -> steps pf me m1 dt x k = Ok (m2, y) ->
    exists m2' y', steps pf me m1 dt x' k = Ok (m2', y') /\ pushed m y y' /\ Rabs (dpos i y y') <= eps /\ Rabs (dvel m i y y') <= eps.
Proof.
  intros W Hi Cr Hu E0 P eps He. set (h := dt / m_tau m). assert (Eu : a * dt / m_tau m = a * h) by (unfold h, Rdiv; ring). rewrite Eu in Hu.
  set (r := decay me (a * h)). pose proof (decay_small me (a * h) Hu) as Hr. fold r in Hr.
  set (d := dpos i x x'). set (w := dvel m i x x' + a * d). set (g := h * gain me (a * h) * w).
  set (B := 1 + Rabs d + Rabs g + Rabs w). set (A := 1 + Rabs a).
  assert (HB : 0 < B) by (unfold B; pose proof (Rabs_pos d); pose proof (Rabs_pos g); pose proof (Rabs_pos w); lra).
  assert (HA : 0 < A) by (unfold A; pose proof (Rabs_pos a); lra).
  set (e := eps / (2 * (A * B))). assert (HAB : 0 < 2 * (A * B)) by (apply Rmult_lt_0_compat; [lra|now apply Rmult_lt_0_compat]).
  assert (Hee : 0 < e) by now apply Rdiv_lt_0_compat.
  destruct (linear_geometric (Rabs r) (conj (Rabs_pos r) Hr) e Hee) as (K & HK). exists K. intros k m2 y Hk E.
  destruct (push_formula pf me m dt x0 j m1 x x' k m2 y i a W Hi Cr E0 P E) as (m2' & y' & E' & Py & U & V). exists m2', y'. split; [exact E'|]. split; [exact Py|].
  fold h in U, V. fold r in U, V. fold d in U, V. fold w in U, V. destruct (HK k Hk) as [G1 G2].
  assert (Q1 : Rabs (dpos i y y') <= e * B).
  { rewrite U. replace (INR k * h * gain me (a * h) * r ^ pred k * w) with (INR k * r ^ pred k * g) by (unfold g; ring).
    eapply Rle_trans; [apply Rabs_triang|]. rewrite !Rabs_mult, <- !RPow_abs, (Rabs_pos_eq (INR k)) by apply pos_INR.
    apply Rle_trans with (e * Rabs d + e * Rabs g).
    - apply Rplus_le_compat; apply Rmult_le_compat_r; trivial; apply Rabs_pos.
    - unfold B. rewrite <- Rmult_plus_distr_l. apply Rmult_le_compat_l; [lra|]. pose proof (Rabs_pos w). lra. }
  assert (Q2 : Rabs (dvel m i y y' + a * dpos i y y') <= e * B).
  { rewrite V, Rabs_mult, <- RPow_abs. apply Rle_trans with (e * Rabs w); [apply Rmult_le_compat_r; [apply Rabs_pos|exact G2]|].
    apply Rmult_le_compat_l; [lra|]. unfold B. pose proof (Rabs_pos d). pose proof (Rabs_pos g). lra. }
  assert (Ee : e * B * A = eps / 2) by (unfold e; field; lra).
  assert (Q3 : e * B <= e * B * A). { rewrite <- (Rmult_1_r (e * B)) at 1. apply Rmult_le_compat_l; [apply Rmult_le_pos; lra|]. unfold A. pose proof (Rabs_pos a). lra. }
  split; [lra|]. replace (dvel m i y y') with ((dvel m i y y' + a * dpos i y y') + - (a * dpos i y y')) by ring.
  eapply Rle_trans; [apply Rabs_triang|]. rewrite Rabs_Ropp, Rabs_mult.
  assert (Q4 : Rabs a * Rabs (dpos i y y') <= Rabs a * (e * B)) by (apply Rmult_le_compat_l; [apply Rabs_pos|exact Q1]).
  assert (Q5 : Rabs a * (e * B) <= e * B * A). { unfold A. replace (e * B * (1 + Rabs a)) with (e * B + Rabs a * (e * B)) by ring. assert (0 <= e * B) by (apply Rmult_le_pos; lra). lra. }
  lra.
Qed.

(** ** steps which are too long *)
Lemma remembered pf m dt m1 x0 j x k m2 y i a d : wf pf m -> (i < m_dim m)%nat -> critically m i a -> 2 <= a * dt / m_tau m ->
  steps pf Euler m dt x0 j = Ok (m1, x) -> length x = dim_x m -> steps pf Euler m1 dt x k = Ok (m2, y) ->
  exists x' m2' y', pushed m x x' /\ dpos i x x' = d /\ steps pf Euler m1 dt x' k = Ok (m2', y') /\ Rabs d <= Rabs (dpos i y y').
Proof.
  intros W Hi Cr Hu E0 L E.
  set (x' := map (fun l => if Nat.eqb l i then nth l x 0 + d else if Nat.eqb l (m_dim m + i) then nth l x 0 - a * d else nth l x 0) (seq 0 (dim_x m))).
  assert (L' : length x' = dim_x m) by (unfold x'; now rewrite map_length, seq_length).
  assert (Dx : (2 * m_dim m <= dim_x m)%nat) by (unfold dim_x; lia).
  assert (N : forall l, (l < dim_x m)%nat -> nth l x' 0 = if Nat.eqb l i then nth l x 0 + d else if Nat.eqb l (m_dim m + i) then nth l x 0 - a * d else nth l x 0)
    by (intros l Hl; unfold x'; exact (nth_map_seq _ _ _ _ Hl)).
  assert (P : pushed m x x').
  { split; [exact L|]. split; [exact L'|]. intros l Hl. destruct (Nat.ltb_spec l (dim_x m)) as [H|H]; [|now rewrite !nth_overflow by lia].
    rewrite N by exact H. destruct (Nat.eqb_spec l i); [lia|]. destruct (Nat.eqb_spec l (m_dim m + i)); [lia|reflexivity]. }
  assert (D1 : dpos i x x' = d) by (unfold dpos; rewrite N by lia; rewrite Nat.eqb_refl; ring).
  assert (D2 : dvel m i x x' = - (a * d)).
  { unfold dvel. rewrite N by lia. destruct (Nat.eqb_spec (m_dim m + i) i); [lia|]. rewrite Nat.eqb_refl. ring. }
  destruct (push_formula pf Euler m dt x0 j m1 x x' k m2 y i a W Hi Cr E0 P E) as (m2' & y' & E' & Py & U & V).
  exists x', m2', y'. split; [exact P|]. split; [exact D1|]. split; [exact E'|]. rewrite U, D1, D2. replace (- (a * d) + a * d) with 0 by ring. rewrite Rmult_0_r, Rplus_0_r.
  rewrite Rabs_mult, <- RPow_abs. rewrite <- (Rmult_1_l (Rabs d)) at 1. apply Rmult_le_compat_r; [apply Rabs_pos|].
  rewrite <- (pow1 k). apply pow_incr. split; [lra|]. cbn [decay]. replace (a * (dt / m_tau m)) with (a * dt / m_tau m) by (unfold Rdiv; ring).
  rewrite Rabs_left1 by lra. lra.
Qed.
