(** Proofs about the C++ counterpart: training succeeds; what can not be read. *)
From Coq Require Import String.
From Verif Require Import Base BaseLemmas DynModel DynSpec DynProofs DynProofs2 ParamModel FaModel FaSpec FaProofs FaProofs7 FaProofs8 TrajModel DmpModel DmpSpec DmpProofs DmpProofs2 DmpProofs3 DmpProofs5 DmpProofs6 DmpProofs9 DmpProofs14 CppModel CppSpec CppProofs CppProofs2 CppProofs3 CppProofs5 CppProofs6 CppProofs7.
Open Scope string_scope.
Open Scope R_scope.

(** a call of differentialEquation does not change the rates *)
Lemma goal_idem ex c x c' xd : c_diffeq ex c x = Ok (c', xd) -> forall x', c_rate ex c' x' = c_rate ex c x'.
Proof.
  intros E x'. unfold c_diffeq in E. destruct (negb _); [discriminate|].
  match type of E with (let* _ := ?b in _) = _ => destruct b as [[[goal at1] xg]|] eqn:Eg end; [|discriminate]. cbn [bind] in E.
  destruct (cspring_diffeq _ _ _) as [xs|]; [|discriminate]. cbn [bind] in E.
  destruct (deref (cm_phase c)) as [p|]; [|discriminate]. cbn [bind] in E.
  destruct (csub_diffeq p _) as [xp|]; [|discriminate]. cbn [bind] in E.
  destruct (deref (cm_gating c)) as [a|]; [|discriminate]. cbn [bind] in E.
  destruct (csub_diffeq a _) as [xa|]; [|discriminate]. cbn [bind] in E.
  destruct (cpredictions ex c _) as [fa|]; [|discriminate]. cbn [bind] in E.
  destruct (cscale c _) as [f|]; [|discriminate]. cbn [bind] in E.
  destruct (cadd_forcing _ _ _ _) as [z|]; [|discriminate]. cbn [bind] in E.
  assert (Ec : c' = cset_goal c goal) by congruence. subst c'. clear E.
  destruct (cm_goal c) as [g|] eqn:Ecg.
  - destruct (exp_set_attr g (cm_attr c)) as [g1|] eqn:Es; [|discriminate]. cbn [bind] in Eg.
    destruct (exp_diffeq g1 _) as [v|]; [|discriminate]. cbn [bind] in Eg. assert (Egg : goal = Some g1) by congruence. subst goal.
    unfold exp_set_attr in Es. destruct (Nat.eqb (length (cm_attr c)) (length (ce_init g))) eqn:El; [|discriminate].
    assert (E1 : g1 = Cexp (ce_tau g) (ce_init g) (cm_attr c) (ce_alpha g)) by congruence. subst g1.
    unfold c_rate, c_diffeq, cset_goal, cdim, cpredictions, cscale.
    cbn [cm_tau cm_y0 cm_attr cm_spring cm_goal cm_phase cm_gating cm_scaling cm_amps cm_fas]. unfold cdim. cbn [cm_y0].
    rewrite Ecg. unfold exp_set_attr. cbn [ce_init ce_tau ce_attr ce_alpha]. rewrite El. cbn [bind].
    destruct (negb _); [reflexivity|]. destruct (exp_diffeq _ _) as [w|]; [|reflexivity]. cbn [bind].
    destruct (cspring_diffeq _ _ _) as [w1|]; [|reflexivity]. cbn [bind]. destruct (deref _) as [w2|]; [|reflexivity]. cbn [bind].
    destruct (csub_diffeq w2 _) as [w3|]; [|reflexivity]. cbn [bind]. destruct (deref _) as [w4|]; [|reflexivity]. cbn [bind].
    destruct (csub_diffeq w4 _) as [w5|]; [|reflexivity]. cbn [bind]. destruct (mapM _ _) as [w6|]; [|reflexivity]. cbn [bind].
    match goal with |- bind (bind ?b _) _ = _ => destruct b as [w7|] end; [|reflexivity]. cbn [bind].
    destruct (cadd_forcing _ _ _ _) as [w8|]; reflexivity.
  - assert (Egg : goal = None) by congruence. subst goal. f_equal. unfold cset_goal. rewrite <- Ecg. now destruct c.
Qed.

(** ** Training succeeds *)
(** two inputs that differ determine a line *)
Lemma two_inputs phs a b : In a phs -> In b phs -> a <> b -> determined true 1 (map (fun v => [v]) phs) (ones (length (map (fun v => [v]) phs))).
Proof.
  intros Ha Hb N s o Ls _ H. destruct s as [|s0 [|]]; try discriminate. rewrite map_length in H.
  assert (K : forall v, In v phs -> s0 * v + o = 0).
  { intros v Hv. destruct (In_nth _ _ 0 Hv) as (k & Hk & Ek). specialize (H k ltac:(exact Hk)).
    rewrite (nth_indep _ _ [0]) in H by (now rewrite map_length). rewrite (map_nth (fun v => [v])), Ek in H. unfold affine, dot in H. cbn in H.
    unfold ones in H. rewrite nth_repeat_lt in H by trivial. specialize (H ltac:(lra)). lra. }
  pose proof (K a Ha) as Ka. pose proof (K b Hb) as Kb. assert (s0 = 0) by (assert (s0 * (a - b) = 0) by lra; apply Rmult_integral in H0; destruct H0; [trivial|lra]).
  subst s0. cbn. split; [reflexivity|lra].
Qed.

Section Train.
Variable kinds : nat -> fa_kind.
Variable ns : nat -> nat.
Variables h lam : nat -> R.
Hypothesis Hk : forall i, kinds i <> KOther.
Hypothesis Hn : forall i, (0 < ns i)%nat.
Hypothesis Hh : forall i, 0 < h i < 1.
Hypothesis Hlam : forall i, 0 < lam i.
Notation pf := (py_predict exp kinds).
Notation tf := (trainer kinds ns h lam).
Notation sf := (safe kinds ns h lam).
Let Hlam0 : forall i, 0 <= lam i. Proof. intros i. specialize (Hlam i). lra. Qed.

Lemma trainer_ok i phs ys : differ phs = true -> length ys = length phs -> exists ps, tf i phs ys = Ok ps.
Proof.
  intros D L. apply differ_ok in D. destruct D as (a & b & Ha & Hb & N).
  set (xs := map (fun v => [v]) phs).
  assert (S : samples 1 xs) by (split; [unfold xs; destruct phs; [contradiction|discriminate]|unfold xs; apply Forall_map, Forall_forall; reflexivity]).
  assert (P : per_dim 1 [ns i]) by (split; [reflexivity|repeat constructor; apply Hn]).
  assert (Sp : spread 1 xs [ns i]) by (apply spread_one; left; eauto).
  assert (Ly : length ys = length xs) by (unfold xs; now rewrite map_length).
  destruct (basis_exists 1 xs [ns i] (h i) S ltac:(lia) P Sp (Hh i)) as (C & W & B).
  unfold trainer. specialize (Hk i). destruct (kinds i); [| |congruence].
  - destruct (rbfn_train_ok 1 xs [ns i] (h i) (lam i) ys (In1 ys) S ltac:(lia) Sp (Hlam0 i) Ly ltac:(now left) C W B) as [[_ K] _].
    destruct K as [ps E]; [left; apply Hlam|]. now exists ps.
  - destruct (lwr_train_ok 1 xs [ns i] (h i) (lam i) ys (In1 ys) S ltac:(lia) P Sp Ly ltac:(now left) ltac:(now left) C W B) as [[_ K] _].
    destruct K as [ps E]; [exact (two_inputs phs a b Ha Hb N)|]. now exists ps.
Qed.

(** training which never fails, and agrees with the training of the DMP for all demonstrations *)
Definition total i (phs ys : list R) := if (differ phs && Nat.eqb (length ys) (length phs))%bool then tf i phs ys else sf i [0; 1] [0; 0].
Lemma zero_one_differ : differ [0; 1] = true.
Proof. apply (differ_intro _ 0 1); [now left|right; now left|lra]. Qed.
Lemma total_ok i phs ys : exists ps, total i phs ys = Ok ps.
Proof.
  unfold total. destruct (differ phs) eqn:D, (Nat.eqb_spec (length ys) (length phs)) as [L|]; cbn [andb];
    [now apply trainer_ok|unfold safe; rewrite zero_one_differ; apply trainer_ok; [exact zero_one_differ|reflexivity]..].
Qed.
Lemma total_safe i phs ys ps : total i phs ys = Ok ps -> exists phs' ys', sf i phs' ys' = Ok ps.
Proof.
  unfold total. destruct (differ phs && _)%bool eqn:D; [|eauto]. intros E. exists phs, ys. unfold safe. now rewrite D.
Qed.
Lemma total_total : total_fit pf total.
Proof.
  intros i phs ys ps E. destruct (total_safe i phs ys ps E) as (phs' & ys' & E').
  exact (safe_total kinds ns h lam Hn Hh Hlam0 i phs' ys' ps E').
Qed.
Lemma train_total_same m t m' : sound pf m -> demo (m_dim m) t -> 0 < last (tj_ts t) 0 -> hd 0 (tj_ts t) < last (tj_ts t) 0 ->
  goal_accepts m (nth 0 (mrows (tj_ys t)) []) -> (exists i d, m_phase m = SubT (Tsys (m_tau m) i d)) ->
  m_train pf total m t = Ok m' -> m_train pf tf m t = Ok m'.
Proof.
  intros S Dm Hl Hlt Hg (i & d & Ep) E.
  assert (Hne : tj_ts t <> []) by (intros Z; rewrite Z in Hl; cbn in Hl; lra).
  assert (Htau : m_tau m <> 0) by (apply (proj2 S (repeat 0 (m_dim m)) (repeat 0 (m_dim m))); apply repeat_length).
  destruct (train_setup pf m t S Dm Hne ltac:(lra) Hg) as (m2 & W2 & On & Ed & Ef & Es & Er & Esc & Ex & KC & Sy & Pl & Et).
  rewrite Et in E |- *. destruct (m_fas m2) as [fs|]; [|exact E].
  destruct (targets pf m2 t) as [[phs tg]|] eqn:ET; [|exact E]. cbn [bind fst snd] in E |- *.
  destruct On as (T2 & _). cbn [upd_ts m_tau] in T2.
  destruct (phases_differ kinds m2 t phs tg) as [Df Lp]; trivial.
  { now rewrite Ed. }
  { now rewrite T2. }
  { destruct KC as (K1 & _). exists i, d. rewrite K1, Ep. cbn [sub_set_tau sub_tau t_tau t_init t_down]. do 2 f_equal. field. trivial. }
  rewrite <- E. f_equal. f_equal. apply mapM_ext. intros j Hj. destruct (nth_res fs j) as [f|]; [|reflexivity]. cbn [bind].
  unfold total. rewrite Df. unfold col. rewrite map_length, Lp, Nat.eqb_refl. reflexivity.
Qed.

(** the gating of a sigmoid is never zero *)
Lemma sig_gating tau r q ts xs xds k : s_ana (Ssys tau [1] (PScal r) (PScal q)) ts = Ok (xs, xds) -> (k < length ts)%nat -> at_ xs k 0 <> 0.
Proof.
  unfold s_ana, s_ks, s_ana_k. cbn [g_init g_rate g_infl g_tau length seq mapM par_at nth_res nth_error bind].
  destruct (Req_EM_T 1 0) as [?|_]; [lra|]. cbn [bind]. intros E Hk0. set (K := 1 * (1 + 1 / exp (- r * (tau * q)))) in *.
  set (F := fun t => map (fun '(r0, k0, b) => k0 / (1 + b * exp (- r0 * t))) [(r, K, K / 1 - 1)]) in E.
  assert (Ex : xs = map F ts) by congruence. subst xs. clear E.
  unfold at_. rewrite (nth_indep _ _ (F 0)) by (now rewrite map_length). rewrite map_nth. unfold F. cbn [map nth].
  assert (P : 0 < / exp (- r * (tau * q))) by apply Rinv_0_lt_compat, exp_pos. assert (EK : K = 1 + / exp (- r * (tau * q))) by (unfold K; field; apply Rgt_not_eq, exp_pos).
  pose proof (exp_pos (- r * nth k ts 0)) as P2. apply Rgt_not_eq. unfold Rdiv. apply Rmult_lt_0_compat; [lra|]. apply Rinv_0_lt_compat.
  replace (K * / 1 - 1) with (/ exp (- r * (tau * q))) by (rewrite EK; field; apply Rgt_not_eq, exp_pos). nra.
Qed.

Lemma from_traj_ok ty t fas kw : ty = Kulvicius \/ ty = Countdown -> plain_kw kw -> opt (k_scaling kw) NoScaling = NoScaling ->
  demo (tj_dim t) t -> 0 < last (tj_ts t) 0 -> hd 0 (tj_ts t) < last (tj_ts t) 0 ->
  (tj_dim t <= length fas)%nat -> Forall (fun f => is_trained f = false) fas ->
  exists m, from_traj pf tf ty t (Some fas) kw = Ok m.
Proof.
  intros Hty (K1 & K2 & K3 & K4 & K5 & d & K6) Ksc Dm Hl Hlt Hf Hu.
  assert (Hne : tj_ts t <> []) by (intros Z; rewrite Z in Hl; cbn in Hl; lra).
  assert (Hpos : (0 < length (tj_ts t))%nat) by (destruct (tj_ts t); [congruence|cbn; lia]).
  unfold from_traj. rewrite (last_res_ok _ 0 Hne). cbn [bind].
  destruct (demo_row _ t 0 Dm Hpos) as [R0 L0]. rewrite R0. cbn [bind].
  destruct (demo_row _ t (length (tj_ts t) - 1) Dm ltac:(lia)) as [RN LN].
  assert (EN : last_res (mrows (tj_ys t)) = Ok (last (mrows (tj_ys t)) []) /\ length (last (mrows (tj_ys t)) []) = tj_dim t).
  { pose proof Dm as (_ & (L & _ & _) & _). rewrite last_nth, L. split; [|exact LN]. unfold last_res. rewrite L. exact RN. }
  destruct EN as [EN LN']. rewrite EN. cbn [bind].
  set (y0 := nth 0 (mrows (tj_ys t)) []) in *. set (yN := last (mrows (tj_ys t)) []) in *. set (tau := last (tj_ts t) 0) in *.
  destruct (new_dmp_ok pf ty tau y0 yN (Some fas) kw Hl ltac:(congruence)) as (m0 & E0 & S0 & _ & _ & D0 & T0 & A0 & _ & F0 & R0' & Sc0 & _ & _ & M0 & Sp0 & Da0 & G0).
  { unfold full_kw. rewrite K6. do 5 (split; [trivial|]). exact I. }
  { unfold distinct_for. destruct Hty as [-> | ->]; exact I. }
  { split; [right; now rewrite L0|]. intros i f Hi Hit. exfalso. rewrite Forall_forall in Hu. apply nth_error_In in Hi. apply Hu in Hi. congruence. }
  rewrite E0. cbn [bind]. rewrite L0 in D0.
  destruct (for_gating_ok tau 0.1 1 Hl ltac:(lra)) as (s & Es & Ei & Ets & rt & inf & Ers & Eqs & _).
  unfold new_dmp in E0. rewrite K1, K2, K3, K4, K5, K6 in E0. cbn [opt] in E0.
  assert (DS : default_subs ty tau y0 yN (new_spring tau y0 yN (PScal d) None (PScal 1)) =
    Ok (Some (SubE (Esys tau y0 yN (PScal 15))), SubS s, SubT (new_time tau (match ty with Countdown => true | _ => false end)), None)).
  { unfold default_subs. destruct Hty as [-> | ->]; rewrite Es; reflexivity. }
  rewrite DS in E0. cbn [bind] in E0. clear DS.
  match type of E0 with Ok ?M = _ => assert (Em0 : m0 = M) by congruence end. clear E0.
  assert (P0 : m_phase m0 = SubT (new_time tau (match ty with Countdown => true | _ => false end))) by (rewrite Em0; reflexivity).
  assert (Q0 : m_gating m0 = SubS s) by (rewrite Em0; reflexivity).
  assert (Gm0 : m_goal m0 = Some (SubE (Esys tau y0 yN (PScal 15)))) by (rewrite Em0; reflexivity).
  clear Em0.
  assert (Dm' : demo (m_dim m0) t) by now rewrite D0.
  assert (Ga : goal_accepts m0 y0) by (right; now rewrite Gm0).
  destruct (train_total pf total m0 t) as [m E]; trivial; [exact total_total|exact total_ok|fold tau; lra|congruence|intros fs Ef; rewrite F0 in Ef; injection Ef as <-; lia| |].
  { intros c ts xs xds k _ Ea Hk0. rewrite Q0 in Ea. cbn [sub_set_tau sub_ana] in Ea. rewrite Ei, Ers, Eqs in Ea. cbn [repeat] in Ea.
    exact (sig_gating _ _ _ _ _ _ _ Ea Hk0). }
  exists m. apply train_total_same; trivial. rewrite P0, T0. unfold new_time. eexists _, _. reflexivity.
Qed.
End Train.
