(** Step-by-step executions reach the goal: forcing terms of RBFNs and LWRs, and DMPs trained with demonstrations. *)
From Coq Require Import String Lia Lra.
From Verif Require Import Base BaseLemmas DynModel DynSpec DynProofs DynProofs2 ParamModel ParamSpec FaModel FaProofs4 TrajModel DmpModel DmpSpec DmpSpec2 DmpProofs5 DmpProofs14 SchedProofs2
  CppModel CppSpec CppProofs CppProofs6 ViaSpec ViaProofs TaskProofs2 AffineProofs4 ReproProofs3 IntModel PushSpec PushProofs PushProofs2 ReachSpec ReachProofs ReachProofs2 ReachProofs3.
Open Scope string_scope.
Open Scope R_scope.

Lemma ok_inj {A} (a b : A) : Ok a = Ok b -> a = b.
Proof. congruence. Qed.
(** ** the predictions are bounded for bounded phases *)
Lemma predict_bounded kinds i f B : fa_portable (kinds i) f -> exists F, forall ph v, Rabs ph <= B -> py_predict exp kinds i (f_model f) ph = Ok v -> Rabs v <= F.
Proof.
  intros (_ & n & Hn & Hx). destruct (kinds i) eqn:Ek; [| |contradiction].
  - inversion Hx as [|? ? (c & Ec & Lc) H1]; subst. inversion H1 as [|? ? (w & Ew & Lw) H2]; subst. inversion H2 as [|? ? (v & Ev & Lv) _]; subst. set (n := length c) in *.
    exists (sumn n (fun j => Rabs (nth j v 0))). intros ph vx Hph Ex.
    destruct (mapM (one_act exp c w ph) (seq 0 n)) as [row|er] eqn:Er.
    2:{ exfalso. unfold py_predict in Ex. rewrite Ek in Ex. unfold rbfn_predict in Ex. rewrite (py_acts exp false _ n c w) in Ex by trivial. cbn [andb] in Ex. rewrite Er in Ex. discriminate. }
    rewrite (rbfn_value exp kinds i _ n c w v ph row) in Ex by trivial. apply ok_inj in Ex. subst vx. destruct (acts_range _ _ _ _ _ Er) as [Lr Fr]. rewrite seq_length in Lr.
    apply sumn_abs. intros j Hj. rewrite Rabs_mult. rewrite Forall_forall in Fr. pose proof (Fr (nth j row 0) ltac:(apply nth_In; lia)) as R0.
    rewrite (Rabs_pos_eq (nth j row 0)) by lra. pose proof (Rabs_pos (nth j v 0)). rewrite <- (Rmult_1_l (Rabs (nth j v 0))) at 2. apply Rmult_le_compat_r; lra.
  - inversion Hx as [|? ? (c & Ec & Lc) H1]; subst. inversion H1 as [|? ? (w & Ew & Lw) H2]; subst. inversion H2 as [|? ? (v & Ev & Lv) H3]; subst.
    inversion H3 as [|? ? (o & Eo & Lo) _]; subst. set (n := length c) in *.
    exists (sumn n (fun j => B * Rabs (nth j v 0) + Rabs (nth j o 0))). intros ph vx Hph Ex.
    destruct (if Nat.eqb n 1 then Ok [1] else let* row := mapM (one_act exp c w ph) (seq 0 n) in Ok (FaModel.normalize row)) as [row|er] eqn:Er.
    2:{ exfalso. unfold py_predict in Ex. rewrite Ek in Ex. unfold lwr_predict in Ex. destruct (get_lines _ _); [|discriminate]. cbn [bind] in Ex.
        rewrite (py_acts exp true _ n c w) in Ex by trivial. cbn [andb] in Ex. destruct (Nat.eqb n 1); [discriminate|].
        destruct (mapM (one_act exp c w ph) (seq 0 n)); discriminate. }
    rewrite (lwr_value exp kinds i _ n c w v o ph row) in Ex by trivial.
    assert (Rw : length row = n /\ Forall (fun a => 0 <= a) row /\ rsum row = 1).
    { destruct (Nat.eqb_spec n 1) as [->|]; [apply ok_inj in Er; subst row; repeat split; [repeat constructor; lra|cbn; lra]|].
      destruct (mapM (one_act exp c w ph) (seq 0 n)) as [r0|] eqn:E0; [|discriminate]. cbn [bind] in Er. apply ok_inj in Er. subst row.
      destruct (acts_range _ _ _ _ _ E0) as [Lr Fr]. rewrite seq_length in Lr. rewrite normalize_length. split; [exact Lr|]. split.
      - apply normalize_nonneg. eapply Forall_impl; [|exact Fr]. cbv beta. intros; lra.
      - apply normalize_sum. intros ->. cbn in Lr. lia. }
    destruct Rw as (Lr & Fr & Sr). apply ok_inj in Ex. subst vx.
    apply sumn_abs. intros j Hj. rewrite Rabs_mult.
    assert (R0 : 0 <= nth j row 0 <= 1).
    { split; [rewrite Forall_forall in Fr; apply Fr, nth_In; lia|]. rewrite <- Sr. clear - Fr. revert j. induction Fr as [|a l Ha _ IH]; intros j; [destruct j; cbn; lra|].
      assert (0 <= rsum l) by (clear - IH; specialize (IH (length l)); rewrite nth_overflow in IH by lia; exact IH). cbn [rsum]. destruct j; cbn [nth]; [lra|]. specialize (IH j). lra. }
    rewrite (Rabs_pos_eq (nth j row 0)) by lra. pose proof (Rabs_triang (ph * nth j v 0) (nth j o 0)) as T. rewrite Rabs_mult in T.
    assert (Rabs ph * Rabs (nth j v 0) <= B * Rabs (nth j v 0)) by (apply Rmult_le_compat_r; [apply Rabs_pos|exact Hph]).
    pose proof (Rabs_pos (ph * nth j v 0 + nth j o 0)) as P0.
    rewrite <- (Rmult_1_r (B * Rabs (nth j v 0) + Rabs (nth j o 0))). apply Rmult_le_compat; lra.
Qed.
Lemma portable_bounded kinds m i : (forall f, nth_error (fas_of (pdmp_of m)) i = Some f -> is_trained f = true -> fa_portable (kinds i) f) -> bounded_force (py_predict exp kinds) m i.
Proof.
  intros H B. unfold pred_val. destruct (nth_error _ i) as [f|] eqn:Ef; [|exists 0; intros; rewrite Rabs_R0; lra].
  destruct (is_trained f) eqn:Ti; [|exists 0; intros; rewrite Rabs_R0; lra].
  destruct (predict_bounded kinds i f B (H f eq_refl Ti)) as [F HF]. exists (Rmax F 0). intros ph Hp. destruct (py_predict exp kinds i (f_model f) ph) as [v|] eqn:E.
  - eapply Rle_trans; [exact (HF ph v Hp E)|apply Rmax_l].
  - rewrite Rabs_R0. apply Rmax_r.
Qed.

Section Trained.
Variable kinds : nat -> fa_kind.
Variable ns : nat -> nat.
Variables h lam : nat -> R.
Hypothesis Hk : forall i, kinds i <> KOther.
Hypothesis Hn : forall i, (0 < ns i)%nat.
Hypothesis Hh : forall i, 0 < h i < 1.
Hypothesis Hlam : forall i, 0 < lam i.
Notation pf := (py_predict exp kinds).
Notation tf := (trainer kinds ns h lam).

Lemma trained_chased me ty t fas kw : ty = Kulvicius \/ ty = Countdown -> plain_kw kw -> opt (k_scaling kw) NoScaling = NoScaling ->
  0 < par_val (opt (k_alpha kw) (PScal 20)) 0 ->
  demo (tj_dim t) t -> 0 < last (tj_ts t) 0 -> hd 0 (tj_ts t) < last (tj_ts t) 0 ->
  (tj_dim t <= length fas)%nat -> Forall (fun f => is_trained f = false) fas ->
  exists m, from_traj pf tf ty t (Some fas) kw = Ok m /\ m_dim m = tj_dim t /\ m_attr m = last (mrows (tj_ys t)) [] /\
  exists s, 0 < s /\ forall dt, 0 < dt <= s -> forall plan, Forall (fun p => length (snd p) = tj_dim t) plan -> forall m0 x i, (i < tj_dim t)%nat ->
    (exists xd, m_start pf m None = Ok (m0, x, xd)) \/ (m0 = m /\ length x = dim_x m /\ 0 <= nth (3 * m_dim m + 1) x 0 <= 1) ->
    exists m2 y, chase pf me m0 dt x plan = Ok (m2, y) /\ reaches pf me m2 dt y i (nth i (last_goal m plan) 0).
Proof.
  intros Hty Kw Ksc Hd Dm Hl Hlt Hf Hu.
  destruct (trained_facts kinds ns h lam Hk Hn Hh Hlam ty t fas kw Hty Kw Ksc Dm Hl Hlt Hf Hu) as (m & Em & W & D & F). cbv zeta in F.
  destruct F as (L0 & LN & F1 & F2 & (s & Es & F3) & F4 & F5 & F6 & F7 & (d & Ed & F8 & F9) & F10 & F11 & F12 & phs & tg & fs & Et & F13 & F14).
  set (tau := last (tj_ts t) 0) in *. rewrite Ed in Hd. cbn [par_val] in Hd.
  exists m. split; [exact Em|]. split; [exact D|]. split; [exact F7|].
  destruct (for_gating_ok tau 0.1 1 Hl ltac:(lra)) as (s' & Es' & Ei & _ & rate & infl & Er & _ & Hr & _). rewrite Es in Es'. apply ok_inj in Es'. subst s'.
  set (hs := Rmin (tau / 15) (Rmin (tau / d) (/ - rate))). exists hs.
  assert (P1 : 0 < tau / 15) by (apply Rdiv_lt_0_compat; lra). assert (P2 : 0 < tau / d) by (apply Rdiv_lt_0_compat; lra). assert (P3 : 0 < / - rate) by (apply Rinv_0_lt_compat; lra).
  split; [unfold hs; repeat apply Rmin_glb_lt; assumption|]. intros dt [D1 D2] plan Hp m0 x i Hi Hx.
  assert (M : dt <= tau / 15 /\ dt <= tau / d /\ dt <= / - rate).
  { unfold hs in D2. pose proof (Rmin_l (tau / 15) (Rmin (tau / d) (/ - rate))). pose proof (Rmin_r (tau / 15) (Rmin (tau / d) (/ - rate))). pose proof (Rmin_l (tau / d) (/ - rate)). pose proof (Rmin_r (tau / d) (/ - rate)). lra. }
  destruct M as (M1 & M2 & M3).
  assert (Q1 : dt * 15 <= tau). { apply (Rmult_le_compat_r 15) in M1; [|lra]. replace (tau / 15 * 15) with tau in M1 by field. exact M1. }
  assert (Q2 : dt * d <= tau). { apply (Rmult_le_compat_r d) in M2; [|lra]. replace (tau / d * d) with tau in M2 by (field; lra). exact M2. }
  assert (Q3 : dt * - rate <= 1). { apply (Rmult_le_compat_r (- rate)) in M3; [|lra]. rewrite Rinv_l in M3 by lra. exact M3. }
  assert (Sh : forall i, (i < m_dim m)%nat -> short_steps pf m dt i (d / 2)).
  { clear Hi Hx i. intros i Hi. split; [exact Hi|]. split; [unfold critically; rewrite F4, F8, F9, F10; cbn [par_val]; repeat split; field|].
    split; [rewrite F2; cbn; exact Hl|]. rewrite F1. split; [exact Hl|]. split; [exact D1|]. split.
    { split; [apply Rdiv_lt_0_compat; [apply Rmult_lt_0_compat; lra|exact Hl]|]. apply (Rmult_lt_reg_r tau); [exact Hl|]. replace (d / 2 * dt / tau * tau) with (dt * d / 2) by (field; lra). lra. }
    split.
    - apply portable_bounded. intros f Hf' _. unfold fas_of, pdmp_of in Hf'. rewrite D in Hi. destruct (F14 i Hi) as (ps & sel & Eps & Enf).
      assert (f = Fa ps (Some 1%nat) sel) by (cbn in Hf'; rewrite F13 in Hf'; cbn in Hf'; congruence). subst f.
      destruct (safe_portable kinds ns h lam Hn Hh ltac:(intros j; specialize (Hlam j); lra) i phs _ ps Eps) as [Q _]. apply Q.
    - unfold leads. rewrite F11. split; [exact F5|]. cbn [par_val e_alpha e_tau]. split; [apply Rdiv_lt_0_compat; lra|].
      apply (Rmult_lt_reg_r tau); [exact Hl|]. replace (15 * dt / tau * tau) with (dt * 15) by (field; lra). lra. }
  assert (Fa : forall g, 0 <= g <= 1 -> fades (m_gating m) dt g).
  { intros g Hg. rewrite F3. cbn. rewrite Er, Ei. cbn. lra. }
  assert (Q : touched m m0 /\ length x = dim_x m /\ 0 <= nth (3 * m_dim m + 1) x 0 <= 1).
  { destruct Hx as [[xd E0]|(-> & L & G)].
    - split; [exact (start_touch pf _ _ _ _ E0)|]. split; [exact (start_length pf _ _ _ _ E0)|]. rewrite (start_gating pf m m0 x xd W E0). rewrite F3. cbn. rewrite Ei. cbn. lra.
    - split; [apply touched_refl|]. now split. }
  destruct Q as (T & L & G). rewrite <- D in Hp, Hi.
  destruct (chased pf me dt i (d / 2) plan m m0 x (wf_sound pf m W) (wf_ready pf m W) (Sh i Hi) (Fa _ G) L T Hp) as (m2 & y & E2 & _ & Re). now exists m2, y.
Qed.
End Trained.
