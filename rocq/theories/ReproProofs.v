(** Proofs: errors of forcing terms and errors of movements. *)
From Coq Require Import String.
From Coquelicot Require Import Coquelicot.
From Verif Require Import Base BaseLemmas DynModel DynSpec ParamModel TrajModel DmpModel DmpSpec DmpProofs7 DmpProofs9 ReproSpec.
Open Scope R_scope.

(** ** two sequences driven by slightly different forces *)
Lemma abs3 x y z X Y Z : Rabs x <= X -> Rabs y <= Y -> Rabs z <= Z -> Rabs (x + y + z) <= X + Y + Z.
Proof. intros Hx Hy Hz. pose proof (Rabs_triang (x + y) z). pose proof (Rabs_triang x y). lra. Qed.
Lemma abs_mult x y X : 0 <= x -> Rabs y <= X -> Rabs (x * y) <= x * X.
Proof. intros Hx Hy. rewrite Rabs_mult, (Rabs_pos_eq x) by exact Hx. now apply Rmult_le_compat_l. Qed.

Section Seq.
Variables (N : nat) (a U P Q W : R) (h e z f dy dz : nat -> R).
Hypothesis Ha : 0 < a.
Hypothesis HP : 0 <= P.
Hypothesis Hh : forall k, (S k < N)%nat -> 0 <= h k /\ h k * a <= 1.
Hypothesis Sy : forall k, (S k < N)%nat -> e (S k) = e k + h k * z k + dy k.
Hypothesis Sz : forall k, (S k < N)%nat -> z (S k) = z k + h k * (- (a * a) * e k - 2 * a * z k + f k) + dz k.
Hypothesis Dy : forall k, (S k < N)%nat -> Rabs (dy k) <= h k * P.
Hypothesis Df : forall k, (S k < N)%nat -> Rabs (f k) <= Q.
Hypothesis Dz : forall k, (S k < N)%nat -> Rabs (dz k) <= h k * W.
Hypothesis E0 : e 0%nat = 0.
Hypothesis Z0 : Rabs (z 0%nat) <= U.
Hypothesis HU : Q + W + a * P <= a * U.
Lemma seq_bound k : (k < N)%nat -> Rabs (z k + a * e k) <= U /\ a * Rabs (e k) <= U + P.
Proof.
  induction k as [|k IH]; intros Hk.
  - rewrite E0, Rabs_R0. replace (z 0%nat + a * 0) with (z 0%nat) by ring. split; [exact Z0|]. pose proof (Rabs_pos (z 0%nat)). lra.
  - destruct (IH ltac:(lia)) as [Iu Ie]. destruct (Hh k Hk) as [H0 H1]. specialize (Dz k Hk). specialize (Df k Hk). specialize (Dy k Hk).
    rewrite (Sy k Hk), (Sz k Hk). set (u := z k + a * e k) in *. pose proof (Rabs_pos (z 0%nat)) as U0.
    assert (B1 : Rabs ((1 - h k * a) * u) <= (1 - h k * a) * U) by (apply abs_mult; [lra|exact Iu]).
    assert (B2 : Rabs (h k * f k) <= h k * Q) by now apply abs_mult.
    assert (B3 : Rabs (a * dy k) <= a * (h k * P)) by (apply abs_mult; [lra|exact Dy]).
    split.
    + replace (z k + h k * (- (a * a) * e k - 2 * a * z k + f k) + dz k + a * (e k + h k * z k + dy k)) with ((1 - h k * a) * u + h k * f k + (dz k + a * dy k)) by (unfold u; ring).
      assert (B4 : Rabs (dz k + a * dy k) <= h k * W + a * (h k * P)) by (pose proof (Rabs_triang (dz k) (a * dy k)); lra).
      eapply Rle_trans; [exact (abs3 _ _ _ _ _ _ B1 B2 B4)|]. assert (B9 : h k * (Q + W + a * P) <= h k * (a * U)) by now apply Rmult_le_compat_l. lra.
    + replace (e k + h k * z k + dy k) with ((1 - h k * a) * e k + h k * u + dy k) by (unfold u; ring).
      assert (B5 : Rabs ((1 - h k * a) * e k) <= (1 - h k * a) * Rabs (e k)) by (apply abs_mult; [lra|apply Rle_refl]).
      assert (B6 : Rabs (h k * u) <= h k * U) by now apply abs_mult.
      pose proof (abs3 _ _ _ _ _ _ B5 B6 Dy) as B7.
      assert (B8 : (1 - h k * a) * (a * Rabs (e k)) <= (1 - h k * a) * (U + P)) by (apply Rmult_le_compat_l; lra).
      apply Rle_trans with (a * ((1 - h k * a) * Rabs (e k) + h k * U + h k * P)); [apply Rmult_le_compat_l; lra|].
      replace (a * ((1 - h k * a) * Rabs (e k) + h k * U + h k * P)) with ((1 - h k * a) * (a * Rabs (e k)) + h k * a * (U + P)) by ring. lra.
Qed.
End Seq.

(** ** rollouts of a DMP with other function approximators *)
Section Rollouts.
Variable pf : nat -> list (string * pval) -> R -> res R.

Lemma accel_damped m i a b y z g f : wf pf m -> (i < m_dim m)%nat -> damped m i a b ->
  accel m i y z g (par_val (d_damp (m_spring m)) i) f = (- (a * a) * (y - g) - 2 * a * z + f) / m_tau m.
Proof.
  intros W Hi (_ & D & K & _ & T & _). unfold accel. rewrite D, K. field. split; [lra|]. now apply W.
Qed.
Lemma step_rate b ts tau a k : 0 < a -> 0 < tau -> a * b <= tau -> steps_upto b ts -> (S k < length ts)%nat ->
  let h := (nth (S k) ts 0 - nth k ts 0) / tau in 0 <= h /\ h * a <= 1.
Proof.
  intros Ha Ht Hb Hs Hk h. destruct (Hs k Hk) as [H0 H1]. unfold h. split; [apply Rmult_le_pos; [exact H0|left; now apply Rinv_0_lt_compat]|].
  apply (Rmult_le_reg_r tau); [exact Ht|]. replace ((nth (S k) ts 0 - nth k ts 0) / tau * a * tau) with (a * (nth (S k) ts 0 - nth k ts 0)) by (field; lra).
  rewrite Rmult_1_l. apply Rle_trans with (a * b); [apply Rmult_le_compat_l; lra|exact Hb].
Qed.
Lemma from_u a e z U P : 0 < a -> 0 <= P -> Rabs (z + a * e) <= U -> a * Rabs e <= U + P ->
  Rabs e <= (U + P) / a /\ Rabs z <= 2 * (U + P).
Proof.
  intros Ha HP Hu He. split.
  - apply (Rmult_le_reg_l a); [exact Ha|]. replace (a * ((U + P) / a)) with (U + P) by (field; lra). exact He.
  - replace z with ((z + a * e) + - (a * e)) by ring. eapply Rle_trans; [apply Rabs_triang|]. rewrite Rabs_Ropp, Rabs_mult, (Rabs_pos_eq a) by lra. lra.
Qed.
Lemma abs_div x c X : 0 < c -> Rabs x <= X -> Rabs (x / c) <= X / c.
Proof.
  intros Hc Hx. unfold Rdiv. rewrite Rabs_mult, (Rabs_pos_eq (/ c)) by (left; now apply Rinv_0_lt_compat).
  apply Rmult_le_compat_r; [left; now apply Rinv_0_lt_compat|exact Hx].
Qed.
Lemma rate_bound a e z f U P Q : 0 < a -> 0 <= P -> Q + a * P <= a * U -> Rabs (z + a * e) <= U -> a * Rabs e <= U + P -> Rabs f <= Q ->
  Rabs (- (a * a) * e - 2 * a * z + f) <= 4 * (a * (U + P)).
Proof.
  intros Ha HP HU Hu He Hf. replace (- (a * a) * e - 2 * a * z + f) with (a * (a * e) + (2 * a) * (- (z + a * e)) + f) by ring.
  assert (B1 : Rabs (a * (a * e)) <= a * (U + P)) by (apply abs_mult; [lra|]; rewrite Rabs_mult, (Rabs_pos_eq a) by lra; exact He).
  assert (B2 : Rabs (2 * a * (- (z + a * e))) <= 2 * a * U) by (apply abs_mult; [lra|]; now rewrite Rabs_Ropp).
  eapply Rle_trans; [exact (abs3 _ _ _ _ _ _ B1 B2 Hf)|]. pose proof (Rmult_le_pos a P ltac:(lra) HP). lra.
Qed.

Lemma forced_apart m fs ts sup sup' r r' i a b phi : let m' := upd_fas m fs in wf pf m -> wf pf m' -> (i < m_dim m)%nat -> damped m i a b -> steps_upto b ts ->
  ana pf m ts sup = Ok r -> ana pf m' ts sup' = Ok r' ->
  (forall k, (k < length ts)%nat -> Rabs (at_ (a_forcing r') k i - at_ (a_forcing r) k i) <= phi) ->
  forall k, (k < length ts)%nat ->
    Rabs (yv (a_xs r') k i - yv (a_xs r) k i) <= phi / (a * a) /\
    Rabs (yv (a_xds r') k i - yv (a_xds r) k i) <= 2 * phi / (a * m_tau m) /\
    Rabs (zv (m_dim m) (a_xds r') k i / m_tau m - zv (m_dim m) (a_xds r) k i / m_tau m) <= 4 * phi / (m_tau m * m_tau m).
Proof.
  intros m' W W' Hi Dp Hs E E' Hf k Hk.
  assert (Hne : ts <> []) by (intros ->; cbn in Hk; lia).
  destruct (ana_total pf m ts sup W Hne) as (r1 & E1 & S1). destruct (ana_total pf m' ts sup' W' Hne) as (r2 & E2 & S2).
  rewrite E in E1. injection E1 as <-. rewrite E' in E2. injection E2 as <-.
  pose proof Dp as (Dn & Dd & Dk & Ha & Ht & Hb).
  destruct S1 as (_ & _ & _ & _ & _ & _ & _ & Go & Cx & _ & Ix & Dx & Stx). destruct S2 as (_ & _ & _ & _ & _ & _ & _ & Go' & Cy & _ & Iy & Dy & Sty).
  change (m_dim m') with (m_dim m) in *. change (m_goal m') with (m_goal m) in *. change (m_damping m') with (m_damping m) in *. change (m_spring m') with (m_spring m) in *.
  change (m_attr m') with (m_attr m) in *. change (m_tau m') with (m_tau m) in *. rewrite Dn in Cx, Cy. set (n := m_dim m) in *. set (tau := m_tau m) in *.
  assert (Gg : forall k, (k < length ts)%nat -> gv n (a_xs r') k i = gv n (a_xs r) k i).
  { intros k0 Hk0. destruct (m_goal m) as [g|].
    - destruct Go as (p1 & p1' & Q1 & H1), Go' as (p2 & p2' & Q2 & H2). rewrite (proj1 (H1 k0 i Hk0 Hi)), (proj1 (H2 k0 i Hk0 Hi)). congruence.
    - rewrite (proj1 (Go k0 i Hk0 Hi)). exact (proj1 (Go' k0 i Hk0 Hi)). }
  assert (Az : forall k, (k < length ts)%nat -> zv n (a_xds r) k i = (- (a * a) * (yv (a_xs r) k i - target m (gv n (a_xs r) k i) i) - 2 * a * zv n (a_xs r) k i + at_ (a_forcing r) k i) / tau).
  { intros k0 Hk0. destruct (Dx k0 i Hk0 Hi) as [_ ->]. rewrite (proj1 (Cx k0 i Hk0 Hi)). now apply (accel_damped m i a b). }
  assert (Az' : forall k, (k < length ts)%nat -> zv n (a_xds r') k i = (- (a * a) * (yv (a_xs r') k i - target m (gv n (a_xs r) k i) i) - 2 * a * zv n (a_xs r') k i + at_ (a_forcing r') k i) / tau).
  { intros k0 Hk0. destruct (Dy k0 i Hk0 Hi) as [_ ->]. rewrite (proj1 (Cy k0 i Hk0 Hi)), (Gg k0 Hk0).
    change (accel m' i) with (accel m i). change (target m') with (target m). now apply (accel_damped m i a b). }
  set (e := fun k => yv (a_xs r') k i - yv (a_xs r) k i). set (z := fun k => zv n (a_xs r') k i - zv n (a_xs r) k i).
  set (f := fun k => at_ (a_forcing r') k i - at_ (a_forcing r) k i). set (h := fun k => (nth (S k) ts 0 - nth k ts 0) / tau).
  assert (Zd : forall k, (k < length ts)%nat -> zv n (a_xds r') k i - zv n (a_xds r) k i = (- (a * a) * e k - 2 * a * z k + f k) / tau).
  { intros k0 Hk0. rewrite (Az' k0 Hk0), (Az k0 Hk0). unfold e, z, f. unfold Rdiv. ring. }
  assert (Pp : 0 <= phi) by (eapply Rle_trans; [apply Rabs_pos|exact (Hf k Hk)]).
  assert (Qa : 0 <= phi / a) by (apply Rmult_le_pos; [exact Pp|left; now apply Rinv_0_lt_compat]).
  assert (Qe : a * (phi / a) = phi) by (field; lra).
  destruct (seq_bound (length ts) a (phi / a) 0 phi 0 h e z f (fun _ => 0) (fun _ => 0)) with (k := k) as [Bu Be]; trivial.
  - lra.
  - intros j Hj. now apply (step_rate b).
  - intros j Hj. unfold e, z, h. destruct (Stx j i Hj Hi) as [-> _]. destruct (Sty j i Hj Hi) as [-> _]. destruct (Dx j i ltac:(lia) Hi) as [-> _]. destruct (Dy j i ltac:(lia) Hi) as [-> _].
    change (m_tau m') with tau. unfold Rdiv. ring.
  - intros j Hj. transitivity (z j + (nth (S j) ts 0 - nth j ts 0) * (zv n (a_xds r') j i - zv n (a_xds r) j i)).
    + unfold z. destruct (Stx j i Hj Hi) as [_ ->]. destruct (Sty j i Hj Hi) as [_ ->]. ring.
    + rewrite (Zd j ltac:(lia)). unfold h, Rdiv. ring.
  - intros j Hj. rewrite Rabs_R0. lra.
  - intros j Hj. apply Hf. lia.
  - intros j Hj. rewrite Rabs_R0. lra.
  - unfold e. rewrite (proj1 (Ix i Hi)), (proj1 (Iy i Hi)). ring.
  - unfold z. rewrite (proj2 (Ix i Hi)), (proj2 (Iy i Hi)), Rminus_eq_0, Rabs_R0. exact Qa.
  - lra.
  - destruct (from_u a (e k) (z k) (phi / a) 0 Ha (Rle_refl 0) Bu Be) as [C1 C2]. rewrite Rplus_0_r in C1, C2. split; [|split].
    + eapply Rle_trans; [exact C1|]. apply Req_le. field. lra.
    + destruct (Dx k i Hk Hi) as [-> _]. destruct (Dy k i Hk Hi) as [-> _].
      replace (zv n (a_xs r') k i / tau - zv n (a_xs r) k i / tau) with (z k / tau) by (unfold z, Rdiv; ring).
      eapply Rle_trans; [apply (abs_div _ _ _ Ht C2)|]. apply Req_le. field. lra.
    + replace (zv n (a_xds r') k i / tau - zv n (a_xds r) k i / tau) with ((- (a * a) * e k - 2 * a * z k + f k) / (tau * tau)).
      2:{ replace (zv n (a_xds r') k i / tau - zv n (a_xds r) k i / tau) with ((zv n (a_xds r') k i - zv n (a_xds r) k i) / tau) by (unfold Rdiv; ring). rewrite (Zd k Hk). field. lra. }
      assert (C3 : Rabs (- (a * a) * e k - 2 * a * z k + f k) <= 4 * (a * (phi / a + 0))).
      { apply (rate_bound a (e k) (z k) (f k) (phi / a) 0 phi); trivial; [lra|lra|now apply Hf]. }
      rewrite Rplus_0_r, Qe in C3. apply abs_div; [nra|exact C3].
Qed.

(** ** reproduction of demonstrations *)
Lemma reproduced m t phs tg r i a b p q v eps c : wf pf m -> demo (m_dim m) t -> tj_ts t <> [] -> targets pf m t = Ok (phs, tg) ->
  (i < m_dim m)%nat -> damped m i a b -> steps_upto b (tj_ts t) -> nearly_euler t i p q v ->
  nth i (d_init (m_spring m)) 0 = at_ (mrows (tj_ys t)) 0 i -> nth (m_dim m + i) (d_init (m_spring m)) 0 = 0 ->
  residual pf m phs tg i eps -> ana pf m (tj_ts t) false = Ok r -> 0 <= c ->
  (forall k, (k < length (tj_ts t))%nat -> Rabs (av (m_dim m) (a_xs r) k * factor m i) <= c) ->
  let tau := m_tau m in let E := (c * eps + tau * tau * q + 2 * a * tau * p) / (a * a) + tau * v / a in
  forall k, (k < length (tj_ts t))%nat ->
    Rabs (yv (a_xs r) k i - at_ (mrows (tj_ys t)) k i) <= E /\
    Rabs (yv (a_xds r) k i - at_ (mrows (tj_yds t)) k i) <= 2 * a * E / tau /\
    Rabs (zv (m_dim m) (a_xds r) k i / tau - at_ (mrows (tj_ydds t)) k i) <= 4 * (a * a) * E / (tau * tau).
Proof.
  intros W Dm Hne Et Hi Dp Hs (Hp & Hq & Hv & Hd) I0 I1 Hr Ea Hc Hg tau E k Hk.
  destruct (ana_total pf m (tj_ts t) false W Hne) as (r1 & E1 & S1). rewrite Ea in E1. injection E1 as <-.
  destruct (targets_spec pf m t phs tg r W Dm Hne Et Ea) as (Lp & Lt & T).
  pose proof Dp as (Dn & Dd & Dk & Ha & Ht & Hb). fold tau in Ht, Hb. cbv zeta in T.
  destruct S1 as (_ & _ & _ & _ & _ & _ & _ & _ & Cx & Fx & Ix & Dx & Stx). rewrite Dn in Cx. set (n := m_dim m) in *. fold tau in Dx, T.
  set (ts := tj_ts t) in *. set (y := at_ (mrows (tj_ys t))) in *. set (yd := at_ (mrows (tj_yds t))) in *. set (ydd := at_ (mrows (tj_ydds t))) in *.
  set (e := fun k => yv (a_xs r) k i - y k i). set (z := fun k => zv n (a_xs r) k i - tau * yd k i). set (h := fun k => (nth (S k) ts 0 - nth k ts 0) / tau).
  set (f := fun k => (pred_val pf m (nth k phs 0) i - at_ tg k i) * (av n (a_xs r) k * factor m i)).
  assert (Hh : forall k, (S k < length ts)%nat -> 0 <= h k /\ h k * a <= 1) by (intros j Hj; now apply (step_rate b)).
  assert (Zd : forall k, (k < length ts)%nat -> zv n (a_xds r) k i - tau * ydd k i = (- (a * a) * e k - 2 * a * z k + f k) / tau).
  { intros j Hj. destruct (Dx j i Hj Hi) as [_ ->]. rewrite (proj1 (Cx j i Hj Hi)). rewrite (accel_damped m i a b) by assumption. fold tau.
    destruct (T j Hj) as (Ep & _ & Ti). destruct (Ti i Hi) as (_ & _ & Tj). rewrite (proj1 (Cx j i Hj Hi)), Dd, Dk in Tj. destruct (Fx j i Hj Hi) as [F1 F2]. rewrite F2, F1, <- Ep.
    set (M := par_val (d_mass (m_spring m)) i) in *. assert (HM : M <> 0) by now apply W.
    assert (Tj' : at_ tg j i * av n (a_xs r) j * factor m i = tau * tau * ydd j i + (a * a * (y j i - target m (gv n (a_xs r) j i) i) + 2 * a * (tau * yd j i))) by (rewrite Tj; fold y yd ydd; field; exact HM).
    assert (Fe : f j = pred_val pf m (nth j phs 0) i * av n (a_xs r) j * factor m i - (tau * tau * ydd j i + (a * a * (y j i - target m (gv n (a_xs r) j i) i) + 2 * a * (tau * yd j i)))) by (rewrite <- Tj'; unfold f; ring).
    rewrite Fe. unfold e, z. field. lra. }
  assert (Hf : forall k, (k < length ts)%nat -> Rabs (f k) <= c * eps).
  { intros j Hj. unfold f. rewrite Rabs_mult, Rmult_comm. apply Rmult_le_compat; try apply Rabs_pos; [now apply Hg|]. apply Hr. congruence. }
  assert (Pp : 0 <= c * eps) by (eapply Rle_trans; [apply Rabs_pos|exact (Hf k Hk)]).
  assert (Pv : 0 <= v) by (eapply Rle_trans; [apply Rabs_pos|exact Hv]).
  set (P := tau * p). set (Wz := tau * tau * q). set (U := tau * v + (c * eps + Wz + a * P) / a).
  assert (HP : 0 <= P) by (apply Rmult_le_pos; lra).
  assert (HW : 0 <= Wz) by (unfold Wz; repeat apply Rmult_le_pos; lra).
  assert (HaP : 0 <= a * P) by (apply Rmult_le_pos; lra).
  assert (Htv : 0 <= tau * v) by (apply Rmult_le_pos; lra).
  assert (Hatv : 0 <= a * (tau * v)) by (apply Rmult_le_pos; lra).
  assert (aU : a * U = a * (tau * v) + (c * eps + Wz + a * P)) by (unfold U; field; lra).
  assert (aE : U + P = a * E) by (unfold U, E, P, Wz; field; lra).
  assert (HU0 : tau * v <= U) by (unfold U; assert (0 <= (c * eps + Wz + a * P) / a) by (apply Rmult_le_pos; [lra|left; now apply Rinv_0_lt_compat]); lra).
  destruct (seq_bound (length ts) a U P (c * eps) Wz h e z f (fun k => - (y (S k) i - y k i - (nth (S k) ts 0 - nth k ts 0) * yd k i))
     (fun k => - tau * (yd (S k) i - yd k i - (nth (S k) ts 0 - nth k ts 0) * ydd k i))) with (k := k) as [Bu Be]; trivial.
  - intros j Hj. unfold e, z, h. destruct (Stx j i Hj Hi) as [-> _]. destruct (Dx j i ltac:(lia) Hi) as [-> _]. field. lra.
  - intros j Hj. transitivity (z j + (nth (S j) ts 0 - nth j ts 0) * (zv n (a_xds r) j i - tau * ydd j i) - tau * (yd (S j) i - yd j i - (nth (S j) ts 0 - nth j ts 0) * ydd j i)).
    + unfold z. destruct (Stx j i Hj Hi) as [_ ->]. ring.
    + rewrite (Zd j ltac:(lia)). unfold h. field. lra.
  - intros j Hj. rewrite Rabs_Ropp. destruct (Hd j Hj) as [D1 _]. eapply Rle_trans; [exact D1|]. unfold h, P. apply Req_le. field. lra.
  - intros j Hj. apply Hf. lia.
  - intros j Hj. destruct (Hd j Hj) as [_ D2]. rewrite Ropp_mult_distr_l_reverse, Rabs_Ropp. apply (abs_mult tau) in D2; [|lra]. eapply Rle_trans; [exact D2|]. unfold h, Wz. fold ts. apply Req_le. field. lra.
  - unfold e. rewrite (proj1 (Ix i Hi)), I0. ring.
  - unfold z. rewrite (proj2 (Ix i Hi)), I1. replace (0 - tau * yd 0%nat i) with (- (tau * yd 0%nat i)) by ring. rewrite Rabs_Ropp. eapply Rle_trans; [|exact HU0]. apply abs_mult; [lra|exact Hv].
  - lra.
  - destruct (from_u a (e k) (z k) U P Ha HP Bu Be) as [C1 C2]. rewrite aE in C1, C2. split; [|split].
    + eapply Rle_trans; [exact C1|]. apply Req_le. field. lra.
    + destruct (Dx k i Hk Hi) as [-> _]. replace (zv n (a_xs r) k i / tau - yd k i) with (z k / tau) by (unfold z; field; lra).
      eapply Rle_trans; [apply (abs_div _ _ _ Ht C2)|]. apply Req_le. field. lra.
    + replace (zv n (a_xds r) k i / tau - ydd k i) with ((- (a * a) * e k - 2 * a * z k + f k) / (tau * tau)).
      2:{ replace (zv n (a_xds r) k i / tau - ydd k i) with ((zv n (a_xds r) k i - tau * ydd k i) / tau) by (field; lra). rewrite (Zd k Hk). field. lra. }
      assert (C3 : Rabs (- (a * a) * e k - 2 * a * z k + f k) <= 4 * (a * (U + P))).
      { apply (rate_bound a (e k) (z k) (f k) U P (c * eps)); trivial; [lra|now apply Hf]. }
      rewrite aE in C3. replace (4 * (a * a) * E / (tau * tau)) with (4 * (a * (a * E)) / (tau * tau)) by (unfold Rdiv; ring). apply abs_div; [nra|exact C3].
Qed.
End Rollouts.

(** ** samples of smooth curves *)
Lemma increment (f f' : R -> R) K x d : 0 <= d -> (forall s, x <= s <= x + d -> is_derive f s (f' s) /\ Rabs (f' s) <= K) -> forall s, x <= s <= x + d -> Rabs (f s - f x) <= K * (s - x).
Proof.
  intros Hd H s Hs. destruct (Req_dec s x) as [->|N]; [rewrite Rminus_eq_0, Rabs_R0; lra|].
  destruct (MVT_gen f x s f') as (w & Hw & E).
  - intros u Hu. apply H. rewrite Rmin_left, Rmax_right in Hu by lra. lra.
  - intros u Hu. rewrite Rmin_left, Rmax_right in Hu by lra. destruct (H u ltac:(lra)) as [D _]. apply continuity_pt_filterlim, (ex_derive_continuous f u). now exists (f' u).
  - rewrite Rmin_left, Rmax_right in Hw by lra. rewrite E, Rmult_comm. rewrite Rabs_mult, (Rabs_pos_eq (s - x)), Rmult_comm by lra. apply Rmult_le_compat_r; [lra|]. apply H. lra.
Qed.
Lemma taylor1 (f f' f'' : R -> R) K x d : 0 <= d -> (forall s, x <= s <= x + d -> is_derive f s (f' s) /\ is_derive f' s (f'' s) /\ Rabs (f'' s) <= K) ->
  Rabs (f (x + d) - f x - d * f' x) <= d * (K * d / 2).
Proof.
  intros Hd H. destruct (Req_dec d 0) as [->|N]; [rewrite Rplus_0_r, Rminus_eq_0, !Rmult_0_l, Rminus_eq_0, Rabs_R0; lra|].
  assert (Inc : forall s, x <= s <= x + d -> Rabs (f' s - f' x) <= K * (s - x)) by (apply (increment f' f'' K x d); [exact Hd|intros s Hs; split; now apply H]).
  assert (One : forall sg, (forall s, x <= s <= x + d -> sg * (f' s - f' x) <= K * (s - x)) -> sg * (f (x + d) - f x - d * f' x) <= d * (K * d / 2)).
  { intros sg Hsg. set (g := fun s => sg * (f s - f x - (s - x) * f' x) - K * (s - x) ^ 2 / 2).
    assert (Dg : forall s, x <= s <= x + d -> is_derive g s (sg * (f' s - f' x) - K * (s - x))).
    { intros s Hs. destruct (H s Hs) as (D & _). unfold g. auto_derive; [now exists (f' s)|]. replace (Derive (fun x0 => f x0) s) with (f' s) by (symmetry; now apply is_derive_unique). field. }
    destruct (MVT_gen g x (x + d) (fun s => sg * (f' s - f' x) - K * (s - x))) as (w & Hw & E).
    - intros u Hu. rewrite Rmin_left, Rmax_right in Hu by lra. apply Dg. lra.
    - intros u Hu. rewrite Rmin_left, Rmax_right in Hu by lra. apply continuity_pt_filterlim, (ex_derive_continuous g u). eexists. apply Dg. lra.
    - rewrite Rmin_left, Rmax_right in Hw by lra. specialize (Hsg w Hw).
      assert (G0 : g x = 0) by (unfold g; field). assert (G1 : g (x + d) = sg * (f (x + d) - f x - d * f' x) - d * (K * d / 2)) by (unfold g; field).
      rewrite G0, G1 in E. replace (x + d - x) with d in E by ring.
      assert ((sg * (f' w - f' x) - K * (w - x)) * d <= 0) by (rewrite <- (Rmult_0_l d); apply Rmult_le_compat_r; lra). lra. }
  apply Rabs_le. split.
  - pose proof (One (- 1)) as O. assert (Q : forall s, x <= s <= x + d -> - 1 * (f' s - f' x) <= K * (s - x)) by (intros s Hs; specialize (Inc s Hs); pose proof (Rle_abs (- (f' s - f' x))) as B; rewrite Rabs_Ropp in B; lra). specialize (O Q). lra.
  - pose proof (One 1) as O. assert (Q : forall s, x <= s <= x + d -> 1 * (f' s - f' x) <= K * (s - x)) by (intros s Hs; specialize (Inc s Hs); pose proof (Rle_abs (f' s - f' x)) as B; lra). specialize (O Q). lra.
Qed.
Lemma steps_mono b ts : steps_upto b ts -> forall k l, (k <= l)%nat -> (l < length ts)%nat -> nth k ts 0 <= nth l ts 0.
Proof.
  intros H k l. induction l as [|l IH]; intros Hkl Hl; [replace k with 0%nat by lia; apply Rle_refl|].
  destruct (Nat.eq_dec k (S l)) as [->|]; [apply Rle_refl|]. specialize (IH ltac:(lia) ltac:(lia)). destruct (H l Hl) as [H0 _]. lra.
Qed.
Lemma smooth_euler t i A J b : 0 <= A -> 0 <= J -> 0 <= b -> steps_upto b (tj_ts t) -> sampled_from t i A J ->
  nearly_euler t i (A * b / 2) (J * b / 2) (Rabs (at_ (mrows (tj_yds t)) 0 i)).
Proof.
  intros HA HJ Hb Hs (Y & Yd & Ydd & Yddd & Sm & De). set (ts := tj_ts t) in *.
  split; [apply Rmult_le_pos; [now apply Rmult_le_pos|lra]|]. split; [apply Rmult_le_pos; [now apply Rmult_le_pos|lra]|]. split; [apply Rle_refl|].
  fold ts. intros k Hk dt. destruct (Hs k Hk) as [D0 D1]. fold dt in D0, D1. set (x := nth k ts 0) in *.
  assert (Ex : nth (S k) ts 0 = x + dt) by (unfold dt; ring).
  destruct (Sm k ltac:(fold ts; lia)) as (-> & -> & ->). destruct (Sm (S k) Hk) as (-> & -> & _). fold ts x. rewrite Ex.
  assert (Rg : forall s, x <= s <= x + dt -> nth 0 ts 0 <= s <= last ts 0).
  { intros s Hs'. pose proof (steps_mono b ts Hs 0 k ltac:(lia) ltac:(lia)) as Q0. pose proof (steps_mono b ts Hs (S k) (length ts - 1) ltac:(lia) ltac:(lia)) as Q1. rewrite <- last_nth in Q1. fold x in Q0. lra. }
  assert (Mb : forall K, 0 <= K -> dt * (K * dt / 2) <= dt * (K * b / 2)) by (intros K HK; apply Rmult_le_compat_l; [exact D0|]; assert (K * dt <= K * b) by (apply Rmult_le_compat_l; lra); lra).
  split; (eapply Rle_trans; [|apply Mb; assumption]).
  - apply (taylor1 Y Yd Ydd A); [exact D0|]. intros s Hs'. destruct (De s (Rg s Hs')) as (Q1 & Q2 & _ & Q3 & _). auto.
  - apply (taylor1 Yd Ydd Yddd J); [exact D0|]. intros s Hs'. destruct (De s (Rg s Hs')) as (_ & Q2 & Q3 & _ & Q4). auto.
Qed.
