(** Concrete DMPs which meet the hypotheses of the theorems. *)
From Coq Require Import String.
From Verif Require Import Base BaseLemmas DynModel DynSpec DynProofs ParamModel ParamSpec TrajModel DmpModel DmpSpec DmpProofs DmpProofs5 DmpProofs7 DmpProofs9 DmpProofs11 DmpProofs12 DmpProofs13 DmpProofs16 DmpProofs17 DmpProofs18.
Open Scope R_scope.

(** a demonstration: y = t (t - 1) / 2 at four times *)
Definition ex_demo : traj :=
  Traj [0; 1; 2; 3] (Some 1) 1 (Mat 1 [[0]; [0]; [1]; [3]]) (Mat 1 [[0]; [1]; [2]; [3]]) (Mat 1 [[1]; [1]; [1]; [1]]) None.
(** a function approximator which predicts the right forcing term for it, whatever its weights *)
Definition ex_time (ph : R) : R := - 3 * ln ph / 4.
Definition ex_pf : nat -> list (string * pval) -> R -> res R := fun _ _ ph =>
  let t := ex_time ph in Ok ((9 + (100 * (t * (t - 1) / 2 - 3) + 20 * (3 * t))) / ph).
Definition ex_tf : nat -> list R -> list R -> res (list (string * pval)) := fun _ _ ys =>
  Ok [("weights"%string, PArr (Arr [2%nat] [nth 0 ys 0; nth 1 ys 0]))].
Definition ex_fa : fa := new_fa ["weights"%string].

Lemma ex_predicts : predicts ex_pf ex_tf.
Proof. split; intros; unfold ex_pf; eauto. Qed.
Lemma ex_is_demo : demo 1 ex_demo.
Proof. repeat split; repeat constructor. Qed.
Lemma ex_is_euler : euler_demo 1 ex_demo.
Proof.
  intros [|i] Hi; [|lia]. split; [reflexivity|]. intros k Hk. cbn in Hk.
  destruct k as [|[|[|k]]]; [..|lia]; cbn; lra.
Qed.

(** a new DMP of the first type *)
Lemma ex_new : exists m, new_dmp Ijspeert 2 [5] [7] (Some [ex_fa]) no_kw = Ok m /\ sound ex_pf m /\ synced m /\ plain_goal m /\
  m_dim m = 1%nat /\ m_fas m = Some [ex_fa] /\ m_req m = false /\ m_scaling m = NoScaling /\ goal_accepts m [0] /\
  m_goal m = None /\ m_damping m = None /\ m_gating m = SubE (Esys 2 [1] [0] (PScal 4)) /\ m_phase m = SubE (Esys 2 [1] [0] (PScal 4)) /\
  m_spring m = Dsys 2 [5; 0] [7] (PScal 20) (PScal (20 * 20 / 4)) (PScal 1) 1 /\ m_tau m = 2.
Proof.
  destruct (new_dmp_ok ex_pf Ijspeert 2 [5] [7] (Some [ex_fa]) no_kw ltac:(lra) eq_refl) as (m & E & S & Sy & Pl & Ed & Et & _ & _ & Ef & Er & Es & _ & _ & _ & _ & _ & Hg).
  { repeat split. } { exact I. } { split; [right; cbn; lia|]. intros; unfold ex_pf; eauto. }
  exists m. pose proof E as E'. cbn in E'. injection E' as E'.
  split; [exact E|]. spl; try (rewrite <- E'; reflexivity); try exact S. apply Hg; [reflexivity|exact I].
Qed.
Lemma ex_wf : exists m, new_dmp Ijspeert 2 [5] [7] (Some [ex_fa]) no_kw = Ok m /\ wf ex_pf m /\ m_dim m = 1%nat.
Proof.
  destruct ex_new as (m & E & S & Sy & Pl & Ed & Ef & Er & Es & _). exists m. split; [exact E|]. split; [|exact Ed].
  apply sound_wf; [exact S|]. split; [rewrite Er, Es; intros [H|H]; discriminate|rewrite Es; discriminate].
Qed.
(** the exponential gating is never zero *)
Lemma exp_gating tau c : tau <> 0 -> forall ts, exists xs xds, sub_ana (SubE (Esys tau [1] [0] (PScal c))) ts = Ok (xs, xds) /\
  forall k, (k < length ts)%nat -> at_ xs k 0 = exp (- c * nth k ts 0 / tau).
Proof.
  intros Ht ts. cbn [sub_ana]. eexists _, _. split; [apply e_ana_ok; cbn; auto|].
  intros k Hk. rewrite at_rows by trivial. unfold comp, eX. cbn. replace (- c / tau * nth k ts 0) with (- c * nth k ts 0 / tau) by (field; exact Ht). ring.
Qed.
Lemma ex_train : exists m m', new_dmp Ijspeert 2 [5] [7] (Some [ex_fa]) no_kw = Ok m /\ m_train ex_pf ex_tf m ex_demo = Ok m'.
Proof.
  destruct ex_new as (m & E & S & Sy & Pl & Ed & Ef & Er & Es & Hg & _ & _ & Ega & _). exists m.
  destruct (train_total ex_pf ex_tf m ex_demo) as [m' E']; [..|exists m'; now split]; trivial.
  - intros i phs ys ps H ph. unfold ex_pf. eauto.
  - intros. unfold ex_tf. eauto.
  - rewrite Ed. apply ex_is_demo.
  - discriminate.
  - cbn. lra.
  - intros fs. rewrite Ef, Ed. intros H. injection H as <-. cbn. lia.
  - intros c ts xs xds k Hc Ex Hk. rewrite Ega in Ex. cbn [sub_set_tau e_init e_attr e_alpha] in Ex.
    destruct (exp_gating c 4 Hc ts) as (xs' & xds' & E' & H). rewrite E' in Ex. injection Ex as <- <-. rewrite H by trivial.
    pose proof (exp_pos (- (4) * nth k ts 0 / c)). lra.
Qed.
(** the trained DMP predicts the targets *)
Lemma ex_trained : exists m' phs tg r, wf ex_pf m' /\ synced m' /\ plain_goal m' /\ m_dim m' = 1%nat /\
  (exists m, new_dmp Ijspeert 2 [5] [7] (Some [ex_fa]) no_kw = Ok m /\ m_train ex_pf ex_tf m ex_demo = Ok m') /\
  targets ex_pf m' ex_demo = Ok (phs, tg) /\ fits ex_pf m' phs tg /\ ana ex_pf m' (tj_ts ex_demo) false = Ok r /\
  dmp_regular m' 1.
Proof.
  destruct ex_new as (m & E & S & Sy & Pl & Ed & Ef & Er & Es & Hg & Ego & Eda & Ega & Eph & Esp & Eta).
  destruct ex_train as (m0 & m' & E0 & Et). rewrite E in E0. injection E0 as <-.
  destruct (train_ok ex_pf ex_tf m ex_demo m') as (On & W' & Ed' & Er' & Es' & _ & KC & Sy' & Pl' & Hf); trivial.
  { intros i phs ys ps H ph. unfold ex_pf. eauto. } { rewrite Ed. apply ex_is_demo. } { cbn; lra. }
  rewrite Ef in Hf. destruct Hf as (phs & tg & fs' & Etg & Ef' & Lf & Hfs).
  assert (Dm : demo (m_dim m') ex_demo) by (rewrite Ed', Ed; apply ex_is_demo).
  destruct (ana_total ex_pf m' (tj_ts ex_demo) false W' ltac:(discriminate)) as (r & Ea & Sp).
  exists m', phs, tg, r. destruct On as (T1 & _ & I1 & A1 & _). cbn in T1, A1.
  destruct KC as (K1 & K2 & K3 & K4 & K5 & K6 & K7). rewrite Esp in K4, K5, K6. cbn in K4, K5, K6. specialize (K7 Ego).
  rewrite Eph in K1. rewrite Ega in K2. cbn in K1, K2. rewrite T1, Eta in K1, K2. replace (2 * (3 / 2)) with 3 in K1, K2 by lra.
  split; [trivial|]. split; [apply Sy'; now left|]. split; [now apply Pl'|]. split; [congruence|]. split; [exists m; now split|]. split; [trivial|].
  split; [|split; [trivial|]].
  2:{ unfold dmp_regular. rewrite K1, K2, K7, K3, Eda. repeat split. }
  intros k i Hk Hi. rewrite Ed', Ed in Hi. destruct i as [|i]; [|lia].
  destruct (targets_spec ex_pf m' ex_demo phs tg r W' Dm ltac:(discriminate) Etg Ea) as (L1 & L2 & H).
  rewrite L1 in Hk. destruct (H k Hk) as (Ep & _ & Hr). destruct (Hr 0%nat ltac:(rewrite Ed', Ed; lia)) as (_ & _ & Hv).
  rewrite Ed', Ed in *. clear H Hr.
  destruct Sp as (_ & _ & _ & _ & _ & (ps & pds & Eps & Hps) & (qs & qds & Eqs & Hqs) & HG & HD & _). rewrite Ed' in *.
  destruct (exp_gating 3 4 ltac:(lra) (tj_ts ex_demo)) as (xs & xds & Ex & Hx).
  rewrite K1, Ex in Eps. injection Eps as <- <-. rewrite K2, Ex in Eqs. injection Eqs as <- <-.
  rewrite K7 in HG. rewrite K3, Eda in HD. destruct (HG k 0%nat Hk ltac:(lia)) as [G1 _]. destruct (HD k 0%nat Hk ltac:(lia)) as [D1 _].
  destruct (Hps k Hk) as [P1 _]. destruct (Hqs k Hk) as [Q1 _]. rewrite Hx in P1, Q1 by exact Hk.
  rewrite Ep, P1. rewrite Q1, G1, D1, K4, K5, K6, T1, A1 in Hv.
  unfold factor, target in Hv. rewrite Es', Es, Er', Er in Hv. cbn [par_val nth] in Hv.
  assert (Hfa : exists f, nth_error (fas_of (pdmp_of m')) 0 = Some f /\ is_trained f = true).
  { unfold fas_of, pdmp_of. cbn [p_fas]. rewrite Ef'. specialize (Hfs 0%nat ex_fa eq_refl). cbn in Hfs.
    destruct Hfs as (q & _ & Hq). cbn. eexists; split; [exact Hq|reflexivity]. }
  destruct Hfa as (f & Ef1 & Ef2). unfold pred_val. rewrite Ef1, Ef2. unfold ex_pf. cbv zeta.
  set (t := nth k (tj_ts ex_demo) 0) in *. pose proof (exp_pos (- (4) * t / 3)) as He.
  assert (Et' : ex_time (exp (- (4) * t / 3)) = t) by (unfold ex_time; rewrite ln_exp; field). rewrite Et'.
  set (ga := exp (- (4) * t / 3)) in *.
  assert (Hr : at_ tg k 0 = at_ tg k 0 * ga * 1 / ga) by (field; lra). rewrite Hr, Hv. unfold Rdiv at 1 3. f_equal.
  cbn in Hk. destruct k as [|[|[|[|k]]]]; [..|lia]; unfold t; cbn; field.
Qed.
