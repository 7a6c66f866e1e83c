(** Proofs: trained DMPs reproduce smooth demonstrations; minimum-jerk demonstrations. *)
From Coq Require Import String.
From Coquelicot Require Import Coquelicot.
From Verif Require Import Base BaseLemmas DynModel DynSpec DynProofs DynProofs2 ParamModel FaModel TrajModel TrajSpec TrajProofs TrajProofs2 TrajProofs6 DmpModel DmpSpec DmpProofs7 DmpProofs9
  CppModel CppSpec TaskModel AffineSpec AffineProofs4 ReproSpec ReproProofs.
Open Scope R_scope.

(** ** minimum-jerk trajectories *)
Lemma mj_second s : 0 <= s <= 1 -> Rabs (120 * s ^ 3 - 180 * s ^ 2 + 60 * s) <= 6.
Proof.
  intros Hs. set (w := s * (1 - s)). replace (120 * s ^ 3 - 180 * s ^ 2 + 60 * s) with (60 * (w * (1 - 2 * s))) by (unfold w; ring).
  assert (W0 : 0 <= w) by (unfold w; apply Rmult_le_pos; lra).
  assert (Sq : (w * (1 - 2 * s)) * (w * (1 - 2 * s)) <= 0.1 * 0.1).
  { replace (w * (1 - 2 * s) * (w * (1 - 2 * s))) with (w * w * (1 - 4 * w)) by (unfold w; ring).
    assert (P : 0 <= (w - / 6) * (w - / 6) * (w + / 12)) by (apply Rmult_le_pos; [apply Rle_0_sqr|lra]). lra. }
  rewrite Rabs_mult, (Rabs_pos_eq 60) by lra.
  assert (A : Rabs (w * (1 - 2 * s)) <= 0.1) by (apply Rsqr_le_abs_0 in Sq; rewrite (Rabs_pos_eq 0.1) in Sq by lra; exact Sq). lra.
Qed.
Lemma mj_third s : 0 <= s <= 1 -> Rabs (360 * s ^ 2 - 360 * s + 60) <= 60.
Proof.
  intros Hs. replace (360 * s ^ 2 - 360 * s + 60) with (60 - 360 * (s * (1 - s))) by ring.
  assert (W0 : 0 <= s * (1 - s)) by (apply Rmult_le_pos; lra). assert (W1 : s * (1 - s) <= / 4) by (pose proof (Rle_0_sqr (s - / 2)) as Q; unfold Rsqr in Q; lra).
  apply Rabs_le. lra.
Qed.
Lemma min_jerk_smooth ts y y' t : length y' = length y -> ts <> [] -> nth 0 ts 0 = 0 -> 0 < last ts 0 -> from_min_jerk ts y y' = Ok t ->
  demo (length y) t /\ tj_ts t = ts /\ forall i, (i < length y)%nat -> let D := last ts 0 in let L := Rabs (nth i y' 0 - nth i y 0) in
    sampled_from t i (6 * L / (D * D)) (60 * L / (D * D * D)) /\ at_ (mrows (tj_yds t)) 0 i = 0.
Proof.
  intros Hl Hne H0 HD E. unfold from_min_jerk in E. rewrite Hl, Nat.eqb_refl in E. destruct ts as [|t0 ts'] eqn:Ets; [congruence|]. rewrite <- Ets in *.
  destruct (Req_EM_T (last ts 0) 0) as [|_]; [lra|]. set (D := last ts 0) in *.
  set (F := fun i t => nth i y 0 + (nth i y' 0 - nth i y 0) * (6 * (t / D) ^ 5 - 15 * (t / D) ^ 4 + 10 * (t / D) ^ 3)).
  set (G := fun i t => (nth i y' 0 - nth i y 0) / D * (30 * (t / D) ^ 4 - 60 * (t / D) ^ 3 + 30 * (t / D) ^ 2)).
  set (H := fun i t => (nth i y' 0 - nth i y 0) / (D * D) * (120 * (t / D) ^ 3 - 180 * (t / D) ^ 2 + 60 * (t / D))).
  destruct (new_tables (length y) F G H ts) as (q & Eq & Cq & T & Dm & _ & _ & Sm). cbv zeta in E.
  change (new_traj ts (V2 (table (length y) F ts)) (Some (V2 (table (length y) G ts))) (Some (V2 (table (length y) H ts))) None = Ok t) in E.
  rewrite Eq in E. injection E as <-. split; [|split; [exact T|]].
  { destruct Cq as ((A1 & A2 & A3) & (B1 & B2 & B3) & (C1 & C2 & C3) & _). rewrite Dm in *. unfold demo. rewrite Dm. split; [reflexivity|].
    repeat split; trivial; apply Forall_forall; assumption. }
  intros i Hi L. assert (Hpos : (0 < length ts)%nat) by (destruct ts; [congruence|cbn; lia]). split.
  - exists (F i), (G i), (H i), (fun t => (nth i y' 0 - nth i y 0) / (D * D * D) * (360 * (t / D) ^ 2 - 360 * (t / D) + 60)). rewrite T. split.
    + intros k Hk. pose proof (Sm i Hi k) as Q. rewrite T in Q. exact (Q Hk).
    + fold D. rewrite H0. intros s Hs. assert (Hs' : 0 <= s / D <= 1).
      { split; [apply Rmult_le_pos; [lra|left; now apply Rinv_0_lt_compat]|]. apply (Rmult_le_reg_r D); [exact HD|]. replace (s / D * D) with s by (field; lra). lra. }
      split; [unfold F, G; auto_derive; [exact I|field; lra]|]. split; [unfold G, H; auto_derive; [exact I|field; lra]|].
      split; [unfold H; auto_derive; [exact I|field; lra]|].
      assert (P : forall N c X B, 0 < N -> Rabs X <= B -> Rabs (c / N * X) <= B * Rabs c / N).
      { intros N c X B HN HX. replace (c / N * X) with (c * X / N) by (unfold Rdiv; ring). apply abs_div; [exact HN|]. rewrite Rabs_mult, Rmult_comm. apply Rmult_le_compat_r; [apply Rabs_pos|exact HX]. }
      split; [apply P; [now apply Rmult_lt_0_compat|now apply mj_second]|apply P; [repeat apply Rmult_lt_0_compat; exact HD|now apply mj_third]].
  - pose proof (Sm i Hi 0%nat) as Q. rewrite T in Q. specialize (Q Hpos). rewrite H0 in Q. destruct Q as (_ & Q & _).
    change (at2 (tj_yds q) 0 i = 0). rewrite Q. unfold G. unfold Rdiv. rewrite Rmult_0_l. ring.
Qed.

(** ** trained DMPs *)
Section Train.
Variable kinds : nat -> fa_kind.
Variable ns : nat -> nat.
Variables h lam : nat -> R.
Hypothesis Hk : forall i, kinds i <> KOther.
Hypothesis Hn : forall i, (0 < ns i)%nat.
Hypothesis Hh : forall i, 0 < h i < 1.
Hypothesis Hlam : forall i, 0 < lam i.
Notation pf := (py_predict exp kinds).
Notation tf := (trainer kinds ns h lam).

Lemma learned ty t fas kw d b : ty = Kulvicius \/ ty = Countdown -> plain_kw kw -> opt (k_scaling kw) NoScaling = NoScaling -> opt (k_alpha kw) (PScal 20) = PScal d ->
  demo (tj_dim t) t -> 0 <= hd 0 (tj_ts t) < last (tj_ts t) 0 -> (tj_dim t <= length fas)%nat -> Forall (fun f => is_trained f = false) fas ->
  steps_upto b (tj_ts t) -> 0 < d -> d * b <= 2 * last (tj_ts t) 0 ->
  exists m phs tg q, from_traj pf tf ty t (Some fas) kw = Ok m /\ targets pf m t = Ok (phs, tg) /\ movement pf m (tj_ts t) = Ok q /\ demo (tj_dim t) q /\ tj_ts q = tj_ts t /\
    forall i eps p v w, (i < tj_dim t)%nat -> residual pf m phs tg i eps -> nearly_euler t i p v w ->
    let tau := last (tj_ts t) 0 in let a := d / 2 in let E := (eps + tau * tau * v + 2 * a * tau * p) / (a * a) + tau * w / a in
    forall k, (k < length (tj_ts t))%nat ->
      Rabs (at_ (mrows (tj_ys q)) k i - at_ (mrows (tj_ys t)) k i) <= E /\
      Rabs (at_ (mrows (tj_yds q)) k i - at_ (mrows (tj_yds t)) k i) <= 2 * a * E / tau /\
      Rabs (at_ (mrows (tj_ydds q)) k i - at_ (mrows (tj_ydds t)) k i) <= 4 * (a * a) * E / (tau * tau).
Proof.
  intros Hty Kw Ksc Ka Dm [H0 Hlt] Hf Hu Hs Hd Hb.
  assert (Hl : 0 < last (tj_ts t) 0) by lra.
  assert (Hne : tj_ts t <> []) by (intros Z; rewrite Z in Hl; cbn in Hl; lra).
  assert (Hpos : (0 < length (tj_ts t))%nat) by (destruct (tj_ts t); [congruence|cbn; lia]).
  destruct (trained_facts kinds ns h lam Hk Hn Hh Hlam ty t fas kw Hty Kw Ksc Dm Hl Hlt Hf Hu) as (m & Em & W & D & F). cbv zeta in F.
  destruct F as (Ly & LN & F1 & F2 & (s & Es & F3) & F4 & F5 & F6 & F7 & (d' & F8 & F9 & F10) & F11 & F12 & F13 & phs & tg & fs & F14 & F15 & F16).
  assert (d' = d) by congruence. subst d'.
  destruct (movement_ok pf m (tj_ts t) W Hne) as (q & r & Eq & Er & Sp & Dq & Tq & Hq).
  exists m, phs, tg, q. split; [exact Em|]. split; [exact F14|]. split; [exact Eq|]. rewrite D in *. split; [exact Dq|]. split; [exact Tq|].
  intros i eps p v w Hi Hr He tau a E k Hkk. rewrite <- D in Hi, Dm.
  assert (Dp : damped m i a b).
  { unfold damped. rewrite F4, F9, F10, F11, F1. cbn [par_val]. unfold a. repeat split; lra. }
  assert (Ga : forall k, (k < length (tj_ts t))%nat -> Rabs (av (m_dim m) (a_xs r) k * factor m i) <= 1).
  { intros j Hj. unfold factor. rewrite F6, Rmult_1_r. destruct Sp as (_ & _ & _ & _ & _ & _ & (ps & pds & Eg & Hg) & _). rewrite D. rewrite D in Hg. rewrite (proj1 (Hg j Hj)). rewrite F3 in Eg.
    destruct (gating_contract (last (tj_ts t) 0) 0.1 1 Hl ltac:(lra)) as (s' & X & Xd & Es' & (An & _) & Gc). rewrite Es in Es'. injection Es' as <-.
    destruct (for_gating_ok (last (tj_ts t) 0) 0.1 1 Hl ltac:(lra)) as (s' & Es' & _ & Ets & _). rewrite Es in Es'. injection Es' as <-.
    assert (St : sub_set_tau (SubS s) (last (tj_ts t) 0) = SubS s) by (rewrite <- Ets; destruct s; reflexivity).
    rewrite St in Eg. cbn [sub_ana] in Eg. rewrite An in Eg. injection Eg as <- _.
    destruct (Gc 0%nat ltac:(lia)) as (G0 & _ & Gd & Gp & _). unfold at_. rewrite (nth_map_lt _ _ j 0) by exact Hj. fold (comp X 0 (nth j (tj_ts t) 0)).
    rewrite Rabs_pos_eq by (left; apply Gp). assert (T0 : 0 <= nth j (tj_ts t) 0).
    { pose proof (steps_mono b _ Hs 0 j ltac:(lia) Hj) as Q. assert (hd 0 (tj_ts t) = nth 0 (tj_ts t) 0) by (destruct (tj_ts t); reflexivity). lra. }
    destruct (Rle_lt_or_eq_dec _ _ T0) as [Tp|<-]; [left; rewrite <- G0; now apply Gd|rewrite G0; apply Rle_refl]. }
  pose proof (reproduced pf m t phs tg r i a b p v w eps 1 W Dm Hne F14 Hi Dp Hs He) as Rp.
  assert (I0 : nth i (d_init (m_spring m)) 0 = at_ (mrows (tj_ys t)) 0 i) by (rewrite F13, app_nth1 by lia; reflexivity).
  assert (I1 : nth (m_dim m + i) (d_init (m_spring m)) 0 = 0) by (rewrite F13, app_nth2 by lia; apply nth_repeat).
  specialize (Rp I0 I1 Hr Er ltac:(lra) Ga). cbv zeta in Rp. rewrite F1, Rmult_1_l in Rp. specialize (Rp k Hkk). fold tau in Rp. fold E in Rp.
  destruct Rp as (R1 & R2 & R3). rewrite D in Hi, R3. destruct (Hq k i Hkk Hi) as (-> & E2 & E3).
  assert (V : yv (a_xds r) k i = zv (tj_dim t) (a_xs r) k i / m_tau m).
  { destruct Sp as (_ & _ & _ & _ & _ & _ & _ & _ & _ & _ & _ & Dd & _). rewrite D in Dd. exact (proj1 (Dd k i Hkk Hi)). }
  rewrite E2, E3, <- V, F1. fold tau. auto.
Qed.
End Train.
