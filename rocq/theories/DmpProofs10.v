(** Proofs about DMPs: scaling of time. *)
From Coq Require Import String.
From Verif Require Import Base BaseLemmas DynModel DynSpec DynProofs DynProofs2 DynProofs7 ParamModel TrajModel DmpModel DmpSpec DmpProofs DmpProofs2 DmpProofs3 DmpProofs4 DmpProofs5 DmpProofs7 DmpProofs9.
Open Scope R_scope.

Lemma mapM_ext_in {A B} (f g : A -> res B) l : (forall x, In x l -> f x = g x) -> mapM f l = mapM g l.
Proof.
  induction l as [|x l IH]; intros H; cbn; [reflexivity|]. rewrite (H x) by now left. destruct (g x); cbn; [|reflexivity].
  rewrite IH; [reflexivity|]. intros z Hz. apply H. now right.
Qed.
Lemma mapM_mapped {A B C} (f : A -> res B) (g : A -> res C) (h : B -> C) l :
  (forall x, In x l -> g x = let* y := f x in Ok (h y)) -> mapM g l = let* ys := mapM f l in Ok (map h ys).
Proof.
  induction l as [|x l IH]; intros H; cbn; [reflexivity|]. rewrite (H x) by now left. destruct (f x); cbn; [|reflexivity].
  rewrite IH by (intros z Hz; apply H; now right). destruct (mapM f l); reflexivity.
Qed.

Section C.
Variable c : R.
Hypothesis Hc : 0 < c.

Lemma scale_exp a tau t : tau <> 0 -> - a * (c * t) / (tau * c) = - a * t / tau.
Proof. intros H. field. split; lra. Qed.

Lemma e_scale s ts xs xds : e_tau s <> 0 -> e_ana s ts = Ok (xs, xds) ->
  e_ana (Esys (e_tau s * c) (e_init s) (e_attr s) (e_alpha s)) (map (Rmult c) ts) = Ok (xs, map (map (fun v => v / c)) xds).
Proof.
  intros Ht. unfold e_ana. cbn [e_tau e_init e_attr e_alpha]. destruct (mapM _ _) as [cs|]; [|discriminate]. cbn [bind].
  destruct (Req_EM_T (e_tau s) 0) as [|_]; [congruence|].
  destruct (Req_EM_T (e_tau s * c) 0) as [E|_]; [exfalso; apply Rmult_integral in E; destruct E; lra|].
  intros E. injection E as <- <-. f_equal. rewrite !map_map. f_equal; apply map_ext; intros t.
  - apply map_ext. intros [[a x0] xa]. now rewrite scale_exp.
  - rewrite map_map. apply map_ext. intros [[a x0] xa]. rewrite scale_exp by trivial. field. split; lra.
Qed.

Lemma r_left_scale tau infl alpha v x0 k : tau <> 0 -> r_left_at (tau * c) infl alpha v x0 k = r_left_at tau infl alpha v x0 k.
Proof.
  intros Ht. unfold r_left_at.
  destruct (Req_EM_T tau 0) as [|_]; [congruence|].
  destruct (Req_EM_T (tau * c) 0) as [E|_]; [exfalso; apply Rmult_integral in E; destruct E; lra|].
  replace (Rmax 0 (tau * c * infl)) with (c * Rmax 0 (tau * infl)).
  - replace (- alpha * v * (c * Rmax 0 (tau * infl)) / (tau * c)) with (- alpha * v * Rmax 0 (tau * infl) / tau) by (field; split; lra).
    reflexivity.
  - rewrite <- RmaxRmult by lra. f_equal; ring.
Qed.
Lemma r_ana_at_scale tau alpha v a k x0 t : tau <> 0 ->
  r_ana_at (tau * c) alpha v a k x0 (c * t) = let* p := r_ana_at tau alpha v a k x0 t in Ok (fst p, snd p / c).
Proof.
  intros Ht. unfold r_ana_at.
  destruct (Req_EM_T (x0 - a) 0); [reflexivity|]. destruct (npow _ v) as [p|]; [|reflexivity]. cbn [bind].
  destruct (Req_EM_T tau 0) as [|_]; [congruence|].
  destruct (Req_EM_T (tau * c) 0) as [E|_]; [exfalso; apply Rmult_integral in E; destruct E; lra|].
  destruct (Req_EM_T v 0); [reflexivity|].
  replace (- alpha * v * (c * t) / (tau * c)) with (- alpha * v * t / tau) by (field; split; lra).
  destruct (npow _ (1 / v)) as [d|]; [|reflexivity]. cbn [bind]. destruct (npow _ (1 + 1 / v)) as [d'|]; [|reflexivity]. cbn [bind].
  destruct (Req_EM_T d 0); [reflexivity|]. destruct (Req_EM_T d' 0); [reflexivity|]. cbn [bind fst snd].
  do 2 f_equal. field. repeat split; trivial; lra.
Qed.
Lemma r_scale s ts xs xds : h_tau s <> 0 -> r_ana s ts = Ok (xs, xds) ->
  r_ana (Rsys (h_tau s * c) (h_init s) (h_right s) (h_infl s) (h_alpha s) (h_v s) (h_left s)) (map (Rmult c) ts) =
    Ok (xs, map (map (fun v => v / c)) xds).
Proof.
  intros Ht. unfold r_ana. cbn [h_tau h_init].
  set (s' := Rsys (h_tau s * c) (h_init s) (h_right s) (h_infl s) (h_alpha s) (h_v s) (h_left s)).
  assert (Hat : forall i, r_at s' i = r_at s i).
  { intros i. unfold r_at. cbn. unfold r_v. cbn. destruct (par_at (h_alpha s) i); [|reflexivity]. cbn. destruct (par_at _ i); [|reflexivity]. cbn.
    destruct (par_at (h_right s) i); [|reflexivity]. cbn. destruct (nth_res _ _); [|reflexivity]. cbn.
    destruct (h_left s); [reflexivity|]. destruct (par_at (h_infl s) i); [|reflexivity]. cbn. now rewrite r_left_scale. }
  assert (Hrow : forall t, mapM (fun i => let* c0 := r_at s' i in let '(alpha, v, a, k, x0) := c0 in r_ana_at (h_tau s * c) alpha v a k x0 (c * t)) (seq 0 (length (h_init s)))
    = let* row := mapM (fun i => let* c0 := r_at s i in let '(alpha, v, a, k, x0) := c0 in r_ana_at (h_tau s) alpha v a k x0 t) (seq 0 (length (h_init s))) in
      Ok (map (fun p => (fst p, snd p / c)) row)).
  { intros t. apply mapM_mapped. intros i _. rewrite Hat. destruct (r_at s i) as [[[[[alpha v] a] k] x0]|]; [|reflexivity]. cbn [bind].
    now rewrite r_ana_at_scale. }
  rewrite DmpProofs6.mapM_map. rewrite (mapM_mapped _ _ _ ts (fun t _ => Hrow t)).
  destruct (mapM _ ts) as [rows|]; [|discriminate]. cbn [bind]. intros E. injection E as <- <-. f_equal. rewrite !map_map. f_equal; apply map_ext; intros row.
  - rewrite map_map. now apply map_ext.
  - rewrite !map_map. now apply map_ext.
Qed.
Lemma t_scale s ts xs xds : t_tau s <> 0 -> t_ana s ts = Ok (xs, xds) ->
  t_ana (Tsys (t_tau s * c) (t_init s) (t_down s)) (map (Rmult c) ts) = Ok (xs, map (map (fun v => v / c)) xds).
Proof.
  intros Ht. unfold t_ana. cbn [t_tau t_down].
  destruct (Req_EM_T (t_tau s) 0) as [|_]; [congruence|].
  destruct (Req_EM_T (t_tau s * c) 0) as [E|_]; [exfalso; apply Rmult_integral in E; destruct E; lra|].
  intros E. injection E as <- <-. rewrite !map_map. f_equal. f_equal; apply map_ext; intros t;
  (replace (c * t / (t_tau s * c)) with (t / t_tau s) by (field; split; lra)); destruct (t_down s); cbn;
  repeat match goal with |- context [Rlt_dec ?a ?b] => destruct (Rlt_dec a b) end; trivial; f_equal; field; lra.
Qed.
Lemma sub_scale s ts xs xds : sub_tau s <> 0 -> time_invariant s -> sub_ana s ts = Ok (xs, xds) ->
  sub_ana (sub_set_tau s (sub_tau s * c)) (map (Rmult c) ts) = Ok (xs, map (map (fun v => v / c)) xds).
Proof.
  destruct s; cbn; intros Ht Hi; [now apply e_scale|contradiction|now apply r_scale|now apply t_scale].
Qed.

Lemma at_map2 xds k i : at_ (map (map (fun v => v / c)) xds) k i = at_ xds k i / c.
Proof.
  unfold at_. destruct (Nat.lt_ge_cases k (length xds)) as [H|H].
  - rewrite (nth_map_l _ _ _ []) by trivial. destruct (Nat.lt_ge_cases i (length (nth k xds []))) as [H2|H2].
    + now rewrite (nth_map_l _ _ _ 0).
    + rewrite !nth_overflow with (n := i) by (rewrite ?map_length; trivial). field. lra.
  - rewrite !nth_overflow with (n := k) by (rewrite ?map_length; trivial). destruct i; cbn; field; lra.
Qed.

Section M.
Variable pf : nat -> list (string * pval) -> R -> res R.
Variable m : dmp.
Hypothesis W : wf pf m.

Lemma set_tau_wf : exists m', set_tau m (c * m_tau m) = Ok m' /\ wf pf m' /\ m_tau m' = c * m_tau m.
Proof.
  assert (Ht : m_tau m <> 0) by apply W.
  destruct (set_tau_sound pf m (c * m_tau m) (wf_sound _ _ W) Ht) as (m' & E & S & T).
  { apply Rmult_integral_contrapositive. split; [lra|trivial]. }
  exists m'. split; [exact E|]. split; [|exact T]. apply sound_wf; [exact S|].
  unfold set_tau in E. destruct (Req_EM_T (m_tau m) 0); [congruence|]. apply (f_equal (fun x => match x with Ok y => y | Err _ => m' end)) in E. cbv beta iota in E.
  rewrite <- E. destruct (wf_ready _ _ W) as [R1 R2]. split; [exact R1|exact R2].
Qed.
Lemma set_tau_form m' : set_tau m (c * m_tau m) = Ok m' ->
  m' = upd_tau m (c * m_tau m) (d_set_tau (m_spring m) (d_tau (m_spring m) * c)) (option_map (fun s => sub_set_tau s (sub_tau s * c)) (m_goal m))
    (sub_set_tau (m_phase m) (sub_tau (m_phase m) * c)) (sub_set_tau (m_gating m) (sub_tau (m_gating m) * c)).
Proof.
  unfold set_tau. assert (Ht : m_tau m <> 0) by apply W. destruct (Req_EM_T (m_tau m) 0); [congruence|].
  replace (c * m_tau m / m_tau m) with c by (field; trivial).
  intros E. apply (f_equal (fun x => match x with Ok y => y | Err _ => m' end)) in E. cbv beta iota in E. now symmetry.
Qed.
Lemma nth_scaled k ts : nth k (map (Rmult c) ts) 0 = c * nth k ts 0.
Proof.
  destruct (Nat.lt_ge_cases k (length ts)) as [H|H]; [now rewrite (nth_map_l _ _ _ 0)|].
  rewrite !nth_overflow by (rewrite ?map_length; trivial). ring.
Qed.

Lemma scaled_rollout ts suppress r r' m' : dmp_time_invariant m -> set_tau m (c * m_tau m) = Ok m' ->
  rollout_spec pf m ts suppress r -> rollout_spec pf m' (map (Rmult c) ts) suppress r' ->
  forall k i, (k < length ts)%nat -> (i < m_dim m)%nat ->
    yv (a_xs r') k i = yv (a_xs r) k i /\ yv (a_xds r') k i = yv (a_xds r) k i / c /\
    zv (m_dim m) (a_xds r') k i / m_tau m' = zv (m_dim m) (a_xds r) k i / m_tau m / (c * c).
Proof.
  intros (IP & IA & IG & ID) Em Hr Hr'. apply set_tau_form in Em.
  assert (OP : sub_tau (m_phase m) <> 0) by apply W. assert (OA : sub_tau (m_gating m) <> 0) by apply W.
  assert (Ht : m_tau m <> 0) by apply W.
  assert (Hm' : m_dim m' = m_dim m /\ m_tau m' = c * m_tau m) by (rewrite Em; now split). destruct Hm' as [Hd' Ht'].
  destruct Hr as (_ & _ & _ & _ & _ & (ps & pds & EP & HP) & (as_ & ads & EA & HA) & HG & HD & HF & H0 & HR & HS).
  destruct Hr' as (_ & _ & _ & _ & _ & (ps' & pds' & EP' & HP') & (as' & ads' & EA' & HA') & HG' & HD' & HF' & H0' & HR' & HS').
  rewrite map_length in *. rewrite Hd' in *.
  set (n := m_dim m) in *.
  assert (Hp : forall k, (k < length ts)%nat -> pv n (a_xs r') k = pv n (a_xs r) k).
  { intros k Hk. rewrite (proj1 (HP k Hk)), (proj1 (HP' k Hk)).
    replace (m_phase m') with (sub_set_tau (m_phase m) (sub_tau (m_phase m) * c)) in EP' by now rewrite Em.
    rewrite (sub_scale _ _ _ _ OP IP EP) in EP'. now injection EP' as <- _. }
  assert (Ha : forall k, (k < length ts)%nat -> av n (a_xs r') k = av n (a_xs r) k).
  { intros k Hk. rewrite (proj1 (HA k Hk)), (proj1 (HA' k Hk)).
    replace (m_gating m') with (sub_set_tau (m_gating m) (sub_tau (m_gating m) * c)) in EA' by now rewrite Em.
    rewrite (sub_scale _ _ _ _ OA IA EA) in EA'. now injection EA' as <- _. }
  assert (Hg : forall k i, (k < length ts)%nat -> (i < n)%nat -> gv n (a_xs r') k i = gv n (a_xs r) k i).
  { intros k i Hk Hi. replace (m_goal m') with (option_map (fun s => sub_set_tau s (sub_tau s * c)) (m_goal m)) in HG' by now rewrite Em.
    destruct W as (_ & _ & _ & _ & _ & _ & _ & _ & _ & _ & _ & _ & Og & _).
    destruct (m_goal m) as [g|]; cbn [option_map] in HG'.
    - destruct HG as (gs & gds & EG & HG). destruct HG' as (gs' & gds' & EG' & HG').
      rewrite (proj1 (HG k i Hk Hi)), (proj1 (HG' k i Hk Hi)).
      rewrite (sub_scale _ _ _ _ (proj1 (proj1 Og)) IG EG) in EG'. now injection EG' as <- _.
    - rewrite (proj1 (HG k i Hk Hi)), (proj1 (HG' k i Hk Hi)). now rewrite Em. }
  assert (Hcv : forall k i, (k < length ts)%nat -> (i < n)%nat -> cv n (a_xs r') k i = cv n (a_xs r) k i).
  { intros k i Hk Hi. assert (Emd : m_damping m' = m_damping m) by now rewrite Em. rewrite Emd, ID in HD'. rewrite ID in HD.
    rewrite (proj1 (HD k i Hk Hi)), (proj1 (HD' k i Hk Hi)). now rewrite Em. }
  assert (Hfo : forall k i, (k < length ts)%nat -> (i < n)%nat -> at_ (a_forcing r') k i = at_ (a_forcing r) k i).
  { intros k i Hk Hi. destruct (HF k i Hk Hi) as [F1 F2]. destruct (HF' k i Hk Hi) as [F1' F2'].
    rewrite F2, F2', F1, F1', Ha, Hp by trivial. now rewrite Em. }
  assert (Hacc : forall k i, (k < length ts)%nat -> (i < n)%nat ->
     yv (a_xs r') k i = yv (a_xs r) k i -> zv n (a_xs r') k i = zv n (a_xs r) k i ->
     yv (a_xds r') k i = yv (a_xds r) k i / c /\ zv n (a_xds r') k i = zv n (a_xds r) k i / c).
  { intros k i Hk Hi Ey Ez. destruct (HR k i Hk Hi) as [R1 R2]. destruct (HR' k i Hk Hi) as [R1' R2'].
    rewrite R1, R1', R2, R2', Ey, Ez, Hg, Hcv, Hfo, Ht' by trivial. split; [field; split; [trivial|lra]|].
    unfold accel. rewrite Em. cbn. assert (par_val (d_mass (m_spring m)) i <> 0) by now apply W.
    unfold target. cbn. field. repeat split; trivial; lra. }
  assert (Hall : forall k i, (k < length ts)%nat -> (i < n)%nat ->
     yv (a_xs r') k i = yv (a_xs r) k i /\ zv n (a_xs r') k i = zv n (a_xs r) k i).
  { induction k as [|k IH]; intros i Hk Hi.
    - destruct (H0 i Hi) as [-> ->]. destruct (H0' i Hi) as [-> ->]. now rewrite Em.
    - destruct (IH i ltac:(lia) Hi) as [Ey Ez]. destruct (Hacc k i ltac:(lia) Hi Ey Ez) as [A1 A2].
      destruct (HS k i Hk Hi) as [-> ->]. destruct (HS' k i Hk Hi) as [-> ->]. rewrite !nth_scaled, Ey, Ez, A1, A2.
      split; field; lra. }
  intros k i Hk Hi. destruct (Hall k i Hk Hi) as [Ey Ez]. destruct (Hacc k i Hk Hi Ey Ez) as [A1 A2].
  split; [exact Ey|]. split; [exact A1|]. rewrite A2, Ht'. field. split; [trivial|lra].
Qed.
(** what agreement of the positions implies *)
Lemma scaled_needs ts suppress r r' m' : set_tau m (c * m_tau m) = Ok m' ->
  rollout_spec pf m ts suppress r -> rollout_spec pf m' (map (Rmult c) ts) suppress r' ->
  forall k i, (S (S k) < length ts)%nat -> (i < m_dim m)%nat ->
    nth (S k) ts 0 <> nth k ts 0 -> nth (S (S k)) ts 0 <> nth (S k) ts 0 ->
    (forall j, (j < length ts)%nat -> yv (a_xs r') j i = yv (a_xs r) j i) ->
    let n := m_dim m in
    zv n (a_xs r') k i = zv n (a_xs r) k i /\
    accel m i (yv (a_xs r) k i) (zv n (a_xs r) k i) (target m (gv n (a_xs r') k i) i) (cv n (a_xs r') k i) (at_ (a_forcing r') k i) =
    accel m i (yv (a_xs r) k i) (zv n (a_xs r) k i) (target m (gv n (a_xs r) k i) i) (cv n (a_xs r) k i) (at_ (a_forcing r) k i).
Proof.
  intros Em Hr Hr' k i Hk Hi T1 T2 Hy. cbv zeta. apply set_tau_form in Em.
  assert (Ht : m_tau m <> 0) by apply W.
  assert (Hm' : m_dim m' = m_dim m /\ m_tau m' = c * m_tau m) by (rewrite Em; now split). destruct Hm' as [Hd' Ht'].
  destruct Hr as (_ & _ & _ & _ & _ & _ & _ & _ & _ & _ & _ & HR & HS).
  destruct Hr' as (_ & _ & _ & _ & _ & _ & _ & _ & _ & _ & _ & HR' & HS').
  rewrite map_length in *. rewrite Hd' in *. set (n := m_dim m) in *.
  assert (Hz : forall j, (S j < length ts)%nat -> nth (S j) ts 0 <> nth j ts 0 -> zv n (a_xs r') j i = zv n (a_xs r) j i).
  { intros j Hj Tj. pose proof (Hy j ltac:(lia)) as Y0. pose proof (Hy (S j) Hj) as Y1.
    destruct (HS j i Hj Hi) as [S1 _]. destruct (HS' j i Hj Hi) as [S1' _]. rewrite S1, S1', Y0 in Y1.
    destruct (HR j i ltac:(lia) Hi) as [R1 _]. destruct (HR' j i ltac:(lia) Hi) as [R1' _]. rewrite R1, R1', !nth_scaled, Ht' in Y1.
    set (d := nth (S j) ts 0 - nth j ts 0) in *. assert (Hd : d <> 0) by (unfold d; lra).
    apply Rplus_eq_reg_l in Y1. replace ((c * nth (S j) ts 0 - c * nth j ts 0) * (zv n (a_xs r') j i / (c * m_tau m))) with (d * (zv n (a_xs r') j i / m_tau m)) in Y1 by (unfold d; field; split; [trivial|lra]).
    apply Rmult_eq_reg_l in Y1; [|trivial]. apply (f_equal (fun x => x * m_tau m)) in Y1. unfold Rdiv in Y1.
    rewrite !Rmult_assoc, !Rinv_l, !Rmult_1_r in Y1 by trivial. exact Y1. }
  pose proof (Hz k ltac:(lia) T1) as Z0. pose proof (Hz (S k) Hk T2) as Z1. split; [exact Z0|].
  destruct (HS k i ltac:(lia) Hi) as [_ S1]. destruct (HS' k i ltac:(lia) Hi) as [_ S1']. rewrite S1, S1', Z0, !nth_scaled in Z1.
  apply Rplus_eq_reg_l in Z1. destruct (HR k i ltac:(lia) Hi) as [_ R1]. destruct (HR' k i ltac:(lia) Hi) as [_ R1']. rewrite R1, R1', Z0, Hy in Z1 by lia.
  set (d := nth (S k) ts 0 - nth k ts 0) in *. assert (Hd : d <> 0) by (unfold d; lra).
  assert (HM : par_val (d_mass (m_spring m)) i <> 0) by now apply W.
  apply (Rmult_eq_reg_l d); [|trivial]. rewrite <- Z1. unfold accel. rewrite Em. cbn. unfold target. cbn. unfold d. field. repeat split; trivial; lra.
Qed.
End M.
End C.
