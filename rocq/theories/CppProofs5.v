(** Proofs about the C++ counterpart: steps, conversion of states, setters and histories. *)
From Coq Require Import String.
From Verif Require Import Base BaseLemmas DynModel DynSpec DynProofs ParamModel FaModel TrajModel DmpModel DmpSpec DmpProofs DmpProofs2 DmpProofs3 DmpProofs5 DmpProofs6 DmpProofs14 CppModel CppSpec CppProofs CppProofs2 CppProofs3 CppProofs4.
Open Scope string_scope.
Open Scope R_scope.

Lemma firstn_map2 {A B C} (f : A -> B -> C) : forall k a b, firstn k (map2 f a b) = map2 f (firstn k a) (firstn k b).
Proof.
  induction k as [|k IH]; intros [|x a] [|y b]; cbn; trivial.
  now rewrite IH.
Qed.
Lemma map2_map_r {A B C D} (f : A -> C -> D) (g : B -> C) : forall a b, map2 f a (map g b) = map2 (fun x y => f x (g y)) a b.
Proof. induction a as [|x a IH]; intros [|y b]; cbn; trivial. now rewrite IH. Qed.
Lemma visible_len n x : length x = (4 * n + 2)%nat -> length (visible n x) = (3 * n + 2)%nat.
Proof. intros H. unfold visible. rewrite firstn_length. lia. Qed.

Section Same.
Variable ex : R -> R.
Variable kinds : nat -> fa_kind.
Notation pf := (py_predict ex kinds).
Variable m : dmp.
Hypothesis W : wf pf m.
Hypothesis Po : portable kinds m.
Notation n := (m_dim m).
Notation c := (img kinds m).

Lemma rate_same x : length x = dim_x m ->
  exists xd, py_rate ex kinds m x = Ok xd /\ length xd = dim_x m /\ c_rate ex c (visible n x) = Ok (visible n xd).
Proof.
  intros Hx. destruct (diffeq_same ex kinds m W Po x Hx) as (g & xd & E1 & _ & L & _ & E2).
  exists xd. unfold py_rate, c_rate. rewrite E1, E2. now split.
Qed.
Lemma dim_x_eq : dim_x m = (4 * n + 2)%nat. Proof. unfold dim_x. lia. Qed.
Lemma vis_x x : length x = dim_x m -> Nat.eqb (length (visible n x)) (3 * n + 2) = true.
Proof. intros H. rewrite dim_x_eq in H. rewrite visible_len by trivial. apply Nat.eqb_refl. Qed.
Lemma step_len (x k : list R) h : length x = dim_x m -> length k = dim_x m -> length (map2 Rplus x (map h k)) = dim_x m.
Proof. intros H1 H2. rewrite map2_length, map_length. lia. Qed.
Lemma step_vis (x k : list R) h : visible n (map2 Rplus x (map h k)) = map2 (fun u v => u + h v) (visible n x) (visible n k).
Proof. unfold visible. now rewrite firstn_map2, firstn_map, map2_map_r. Qed.

Lemma euler_same dt x : 0 < dt -> length x = dim_x m ->
  exists x' xd, step_euler (py_rate ex kinds m) (dim_x m) dt x = Ok (x', xd) /\
    c_euler ex c dt (visible n x) = Ok (visible n x', visible n xd).
Proof.
  intros Hdt Hx. destruct (rate_same x Hx) as (xd & E1 & L & E2).
  exists (map2 Rplus x (map (Rmult dt) xd)), xd. split.
  - unfold step_euler. rewrite Hx, Nat.eqb_refl, E1. cbn [bind]. rewrite vop_same by (rewrite map_length; lia). reflexivity.
  - unfold c_euler. destruct (Rlt_dec 0 dt) as [_|?]; [|contradiction]. rewrite (cdim_img kinds m Po), vis_x by trivial. cbn [negb].
    rewrite E2. cbn [bind]. now rewrite step_vis.
Qed.
Lemma rk_same dt x : 0 < dt -> length x = dim_x m ->
  exists x' xd, step_rk (py_rate ex kinds m) (dim_x m) dt x = Ok (x', xd) /\ length x' = dim_x m /\ length xd = dim_x m /\
    c_rk ex c dt (visible n x) = Ok (visible n x', visible n xd).
Proof.
  intros Hdt Hx.
  destruct (rate_same x Hx) as (k1 & P1 & L1 & C1).
  set (i2 := map2 Rplus x (map (Rmult (dt * 0.5)) k1)). destruct (rate_same i2) as (k2 & P2 & L2 & C2); [now apply step_len|].
  set (i3 := map2 Rplus x (map (Rmult (dt * 0.5)) k2)). destruct (rate_same i3) as (k3 & P3 & L3 & C3); [now apply step_len|].
  set (i4 := map2 Rplus x (map (Rmult dt) k3)). destruct (rate_same i4) as (k4 & P4 & L4 & C4); [now apply step_len|].
  set (s := map2 Rplus (map2 Rplus k1 (map (Rmult 2) (map2 Rplus k2 k3))) k4).
  assert (Ls : length s = dim_x m) by (unfold s; rewrite !map2_length, map_length, map2_length; lia).
  set (x' := map2 Rplus x (map (fun v => dt * v / 6) s)). assert (Lx' : length x' = dim_x m) by now apply step_len. destruct (rate_same x') as (xd & P5 & L5 & C5); [exact Lx'|].
  exists x', xd. split; [|split; [exact Lx'|split; [exact L5|]]].
  - unfold step_rk. rewrite Hx, Nat.eqb_refl, P1. cbn [bind]. rewrite vop_same by (rewrite map_length; lia). cbn [bind]. fold i2. rewrite P2. cbn [bind].
    rewrite vop_same by (rewrite map_length; lia). cbn [bind]. fold i3. rewrite P3. cbn [bind].
    rewrite vop_same by (rewrite map_length; lia). cbn [bind]. fold i4. rewrite P4. cbn [bind].
    rewrite vop_same by lia. cbn [bind]. rewrite vop_same by (rewrite map_length, map2_length; lia). cbn [bind].
    rewrite vop_same by (rewrite map2_length, map_length, map2_length; lia). cbn [bind]. fold s.
    rewrite vop_same by (rewrite map_length; lia). cbn [bind]. fold x'. rewrite P5. reflexivity.
  - unfold c_rk. destruct (Rlt_dec 0 dt) as [_|?]; [|contradiction]. rewrite (cdim_img kinds m Po), vis_x by trivial. cbn [negb].
    rewrite C1. cbn [bind]. rewrite <- (step_vis x k1 (Rmult (dt * 0.5))). fold i2. rewrite C2. cbn [bind].
    rewrite <- (step_vis x k2 (Rmult (dt * 0.5))). fold i3. rewrite C3. cbn [bind].
    rewrite <- (step_vis x k3 (Rmult dt)). fold i4. rewrite C4. cbn [bind].
    assert (Es : map2 Rplus (map2 (fun a b => a + 2 * b) (visible n k1) (map2 Rplus (visible n k2) (visible n k3))) (visible n k4) = visible n s).
    { unfold s, visible. now rewrite !firstn_map2, firstn_map, map2_map_r, firstn_map2. }
    rewrite Es. rewrite <- (step_vis x s (fun v => dt * v / 6)). fold x'. rewrite C5. reflexivity.
Qed.

Lemma state_same x xd : length x = dim_x m -> length xd = dim_x m ->
  exists y yd ydd, states_as_rows m [x] [xd] = Ok [(y, yd, ydd)] /\ c_pos_vel_acc c (visible n x) (visible n xd) = Ok (y, yd, ydd).
Proof.
  intros Hx Hxd. rewrite dim_x_eq in Hx, Hxd. assert (Ht : m_tau m <> 0) by apply W.
  exists (firstn n x), (firstn n xd), (map (fun v => v / m_tau m) (firstn n (skipn n xd))). split.
  - unfold states_as_rows. cbn [combine mapM fst snd]. unfold get_ix, ix_y, ix_z. cbn [fst snd].
    rewrite !(proj2 (Nat.leb_le _ _)) by lia. cbn [bind skipn]. rewrite vdiv_ok by trivial. reflexivity.
  - unfold c_pos_vel_acc. rewrite (cdim_img kinds m Po). cbn [img cm_tau]. destruct (Req_EM_T (m_tau m) 0) as [?|_]; [contradiction|].
    unfold visible. rewrite !firstn_firstn. replace (Nat.min n (3 * n + 2)) with n by lia.
    rewrite skipn_firstn_comm, firstn_firstn. replace (Nat.min n (3 * n + 2 - n)) with n by lia. reflexivity.
Qed.

(** *** setters *)
Lemma csub_tau s t : csub_set_tau (csub_of s) t = csub_of (sub_set_tau s t).
Proof. now destruct s. Qed.
Lemma sub_portable_tau s t : sub_portable s -> sub_portable (sub_set_tau s t).
Proof. now destruct s. Qed.
Lemma tau_same t : 0 < t -> uniform m -> exists m', set_tau m t = Ok m' /\ c_set_tau c t = Ok (img kinds m') /\
  wf pf m' /\ portable kinds m' /\ uniform m' /\ m_tau m' = t /\ m_dim m' = n.
Proof.
  intros Ht (U1 & U2 & U3). assert (Hm : m_tau m <> 0) by apply W.
  destruct (set_tau_sound pf m t (wf_sound pf m W) Hm ltac:(lra)) as (m' & E & So & Em).
  exists m'. split; [exact E|]. unfold set_tau in E. destruct (Req_EM_T (m_tau m) 0) as [?|_]; [contradiction|].
  pose proof Po as (Ha & Hreq & Hda & (y0 & Ey & Ly & Ei & tg & at0 & al & Eg & La) & Hdim & Htau & (d & Ed & Ek) & Emass & Hp & Hga & Hamp & Hfas).
  rewrite Eg in U3. cbn [sub_tau e_tau] in U3.
  assert (St : forall s, sub_tau s = m_tau m -> sub_set_tau s (sub_tau s * (t / m_tau m)) = sub_set_tau s t).
  { intros s Hs. f_equal. rewrite Hs. field. trivial. }
  rewrite St in E by exact U1. rewrite (St (m_gating m)) in E by exact U2. rewrite Htau in E.
  replace (m_tau m * (t / m_tau m)) with t in E by (field; trivial). rewrite Eg in E. cbn [option_map] in E.
  rewrite St in E by exact U3. cbn [sub_set_tau e_tau e_init e_attr e_alpha] in E.
  set (M := upd_tau m t (d_set_tau (m_spring m) t) (Some (SubE (Esys t y0 at0 (PScal al)))) (sub_set_tau (m_phase m) t) (sub_set_tau (m_gating m) t)) in *.
  assert (EM : m' = M) by congruence. clear E. subst m'.
  split; [|split; [|split; [|split; [|split]]]].
  - unfold c_set_tau, M, img. cbn [cm_phase cm_gating deref bind cm_y0 cm_attr cm_spring cm_goal cm_scaling cm_amps cm_fas]. rewrite !csub_tau, Eg. reflexivity.
  - apply sound_wf; [exact So|]. pose proof (wf_ready pf m W) as [R1 R2]. split; [exact R1|exact R2].
  - unfold portable, M. cbn [upd_tau m_y0 m_tau m_attr m_spring d_damp m_goal m_phase m_gating m_scaling m_amps m_dim m_req m_damping m_fas d_set_tau d_init d_dimy d_tau d_spring d_mass].
    do 3 (split; [trivial|]). split; [exists y0; do 3 (split; [trivial|]); now exists t, at0, al|]. split; [trivial|]. split; [trivial|].
    split; [now exists d|]. split; [trivial|]. split; [now apply sub_portable_tau|]. split; [now apply sub_portable_tau|]. now split.
  - unfold uniform, M. cbn [upd_tau m_phase m_gating m_tau m_goal]. rewrite !sub_tau_set_tau. now repeat split.
  - reflexivity.
  - reflexivity.
Qed.
Lemma y0_same y : length y = n -> uniform m -> exists m', set_y0 m y = Ok m' /\ c_set_y0 c y = Ok (img kinds m') /\
  wf pf m' /\ portable kinds m' /\ uniform m' /\ m_tau m' = m_tau m /\ m_dim m' = n.
Proof.
  intros Hy (U1 & U2 & U3).
  pose proof Po as (Ha & Hreq & Hda & (y0 & Ey & Ly & Ei & tg & at0 & al & Eg & La) & Hdim & Htau & (d & Ed & Ek) & Emass & Hp & Hga & Hamp & Hfas).
  destruct (set_y0_sound pf m y (wf_sound pf m W) Hy) as (m' & E & So & Em); [right; now rewrite Eg|].
  exists m'. split; [exact E|]. unfold set_y0 in E. rewrite Hy, Nat.eqb_refl in E.
  unfold d_set_y_init in E. rewrite Hdim in E. destruct (set_y_double _ y Hy) as [E1 _]. rewrite E1 in E. cbn [bind] in E. clear E1.
  rewrite Eg, Hreq in E. unfold sub_set_y_init in E.
  change (sub_dim (SubE (Esys tg y0 at0 (PScal al)))) with (length y0) in E. rewrite Ly, set_y_same in E by trivial. cbn [bind e_tau e_attr e_alpha] in E.
  set (M := upd_y0 m y _ _) in E. assert (EM : m' = M) by congruence. clear E. subst m'. rewrite Eg in U3.
  assert (Pd : pad (2 * n) y = (y ++ repeat 0 n)%list) by (unfold pad; rewrite Hy; do 2 f_equal; lia).
  split; [|split; [|split; [|split; [|split]]]].
  - unfold c_set_y0. rewrite (cdim_img kinds m Po), Hy, Nat.eqb_refl. cbn [negb]. unfold M, img.
    cbn [cm_tau cm_phase cm_gating deref bind cm_y0 cm_attr cm_spring cm_goal cm_scaling cm_amps cm_fas]. rewrite Eg. unfold exp_set_init. cbn [cexp_of e_init ce_init]. rewrite Hy, Ly, Nat.eqb_refl. reflexivity.
  - apply sound_wf; [exact So|]. pose proof (wf_ready pf m W) as [R1 R2]. split; [discriminate|exact R2].
  - unfold portable, M. cbn [upd_y0 m_y0 m_tau m_attr m_spring d_damp m_goal m_phase m_gating m_scaling m_amps m_dim m_req m_damping m_fas d_init d_dimy d_tau d_spring d_mass].
    do 3 (split; [trivial|]). split; [exists y; split; [trivial|]; split; [trivial|]; split; [exact Pd|]; now exists tg, at0, al|]. split; [trivial|]. split; [trivial|].
    split; [now exists d|]. split; [trivial|]. split; [trivial|]. split; [trivial|]. now split.
  - unfold uniform, M. cbn [upd_y0 m_phase m_gating m_tau m_goal]. now repeat split.
  - reflexivity.
  - reflexivity.
Qed.
Lemma attr_same y : length y = n -> uniform m -> exists m', set_yattr m y = Ok m' /\ c_set_attr c y = Ok (img kinds m') /\
  wf pf m' /\ portable kinds m' /\ uniform m' /\ m_tau m' = m_tau m /\ m_dim m' = n.
Proof.
  intros Hy (U1 & U2 & U3).
  pose proof Po as (Ha & Hreq & Hda & (y0 & Ey & Ly & Ei & tg & at0 & al & Eg & La) & Hdim & Htau & (d & Ed & Ek) & Emass & Hp & Hga & Hamp & Hfas).
  destruct (set_yattr_sound pf m y (wf_sound pf m W) Hy) as (g & E1 & E & So).
  exists (upd_attr m y g). split; [exact E|]. clear E. unfold goal_attr in E1. rewrite Eg, Hreq in E1. cbn [sub_set_attr e_init] in E1.
  rewrite Hy, Ly, Nat.eqb_refl in E1. cbn [bind e_tau e_alpha] in E1.
  assert (EM : g = Some (SubE (Esys tg y0 y (PScal al)))) by congruence. clear E1. subst g. rewrite Eg in U3.
  split; [|split; [|split; [|split; [|split]]]].
  - unfold c_set_attr, img. cbn [cm_tau cm_phase cm_gating deref bind cm_y0 cm_attr cm_spring cm_goal cm_scaling cm_amps cm_fas]. rewrite Eg. unfold exp_set_attr. cbn [cexp_of e_init ce_init]. rewrite Hy, Ly, Nat.eqb_refl. reflexivity.
  - apply sound_wf; [exact So|]. pose proof (wf_ready pf m W) as [R1 R2]. split; [exact R1|exact R2].
  - unfold portable. cbn [upd_attr m_y0 m_tau m_attr m_spring d_damp m_goal m_phase m_gating m_scaling m_amps m_dim m_req m_damping m_fas d_init d_dimy d_tau d_spring d_mass].
    do 3 (split; [trivial|]). split; [exists y0; do 3 (split; [trivial|]); now exists tg, y, al|]. split; [trivial|]. split; [trivial|].
    split; [now exists d|]. split; [trivial|]. split; [trivial|]. split; [trivial|]. now split.
  - unfold uniform. cbn [upd_attr m_phase m_gating m_tau m_goal]. now repeat split.
  - reflexivity.
  - reflexivity.
Qed.
Lemma next_uniform g : uniform m -> uniform (m_next m g).
Proof.
  intros (U1 & U2 & U3). unfold uniform, m_next. cbn [upd_spring m_phase m_gating m_tau m_goal]. split; [trivial|]. split; [trivial|].
  destruct (m_goal m) as [[e|?|?|?]|]; exact U3.
Qed.
End Same.

(** one call *)
Section Calls.
Variable ex : R -> R.
Variable kinds : nat -> fa_kind.
Notation pf := (py_predict ex kinds).
Definition good (n : nat) (m : dmp) : Prop := wf pf m /\ portable kinds m /\ uniform m /\ 0 < m_tau m /\ m_dim m = n.

Lemma call_same n m q : good n m -> proper n q ->
  exists m' r, py_call ex kinds m q = Ok (m', r) /\ cpp_call ex (img kinds m) q = Ok (img kinds m', r) /\ good n m'.
Proof.
  intros (W & Po & U & Ht & <-) Hq. pose proof (cdim_img kinds m Po) as CD.
  assert (NG : forall g x xd, length g = m_dim m -> m_diffeq pf m x = Ok (m_next m g, xd) -> good (m_dim m) (m_next m g)).
  { intros g x xd Lg E. split; [exact (diffeq_wf pf m x _ _ W E)|]. split; [now apply next_portable|]. split; [now apply next_uniform|]. now split. }
  assert (DX := dim_x_eq m). pose proof (conj W (conj Po (conj U (conj Ht eq_refl))) : good (m_dim m) m) as GM.
  destruct q as [x| |ts|dt x|dt x|x xd|t|y|y]; cbn [proper] in Hq; cbn [py_call cpp_call]; rewrite ?CD.
  - destruct (diffeq_same ex kinds m W Po x) as (g & xd & E1 & Lg & _ & _ & E2); [lia|]. rewrite E1, E2. cbn [bind fst snd].
    exists (m_next m g), (ARate (visible (m_dim m) xd)). split; [reflexivity|]. split; [reflexivity|]. eapply NG; eauto.
  - destruct (start_same ex kinds m W Po) as (g & x & xd & E1 & Lg & _ & _ & E2). rewrite E1, E2. cbn [bind fst snd].
    eexists _, _. split; [reflexivity|]. split; [reflexivity|].
    destruct (touched_sound pf m _ (wf_sound pf m W) (start_touch pf m _ _ _ E1)) as (S & _ & Q & _).
    split; [apply sound_wf; [exact S|apply Q, (wf_ready pf), W]|]. split; [now apply next_portable|]. split; [now apply next_uniform|]. now split.
  - destruct Hq as [Hne Ho]. destruct (wf_parts pf m W) as (G & Gd & P & Pd & A & Ad & D & Dd & C & Cd & Q).
    destruct (ana_same ex kinds m W Po G Gd P Pd A Ad D Dd C Cd Q (0, 0)%nat ts) as (r & E1 & E2); trivial.
    { intros E. apply (f_equal fst) in E. cbn [fst] in E. lia. }
    rewrite E1, E2. cbn [bind]. eexists _, _. split; [reflexivity|]. split; [reflexivity|]. exact GM.
  - destruct (euler_same ex kinds m W Po dt x) as (x' & xd & E1 & E2); [apply Hq|lia|]. rewrite E1, E2. cbn [bind fst snd].
    eexists _, _. split; [reflexivity|]. split; [reflexivity|]. exact GM.
  - destruct (rk_same ex kinds m W Po dt x) as (x' & xd & E1 & _ & _ & E2); [apply Hq|lia|]. rewrite E1, E2. cbn [bind fst snd].
    eexists _, _. split; [reflexivity|]. split; [reflexivity|]. exact GM.
  - destruct (state_same ex kinds m W Po x xd) as (y & yd & ydd & E1 & E2); [lia|lia|]. rewrite E1, E2. cbn [bind fst snd].
    eexists _, _. split; [reflexivity|]. split; [reflexivity|]. exact GM.
  - destruct (tau_same ex kinds m W Po t Hq U) as (m' & E1 & E2 & W' & P' & U' & T' & D'). rewrite E1, E2. cbn [bind].
    eexists _, _. split; [reflexivity|]. split; [reflexivity|]. do 3 (split; [trivial|]). split; [now rewrite T'|trivial].
  - destruct (y0_same ex kinds m W Po y Hq U) as (m' & E1 & E2 & W' & P' & U' & T' & D'). rewrite E1, E2. cbn [bind].
    eexists _, _. split; [reflexivity|]. split; [reflexivity|]. do 3 (split; [trivial|]). split; [now rewrite T'|trivial].
  - destruct (attr_same ex kinds m W Po y Hq U) as (m' & E1 & E2 & W' & P' & U' & T' & D'). rewrite E1, E2. cbn [bind].
    eexists _, _. split; [reflexivity|]. split; [reflexivity|]. do 3 (split; [trivial|]). split; [now rewrite T'|trivial].
Qed.
Lemma run_same n : forall qs m, good n m -> Forall (proper n) qs ->
  run (cpp_call ex) (img kinds m) qs = run (py_call ex kinds) m qs /\ length (run (py_call ex kinds) m qs) = length qs /\
  Forall (fun r => exists v, r = Ok v) (run (py_call ex kinds) m qs).
Proof.
  induction qs as [|q qs IH]; intros m Hm Hq; cbn [run]; [now repeat split|]. inversion Hq as [|? ? Hq1 Hq2]; subst.
  destruct (call_same n m q Hm Hq1) as (m' & r & E1 & E2 & Hm'). rewrite E1, E2. destruct (IH m' Hm' Hq2) as (I1 & I2 & I3).
  rewrite I1. split; [reflexivity|]. split; [cbn; now rewrite I2|]. constructor; [now exists r|trivial].
Qed.
End Calls.
