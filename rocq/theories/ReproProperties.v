(** C109: errors of forcing terms show in movements only divided by the square of the damping rate, however long the movement is. *)
From Coq Require Import String.
From Coquelicot Require Import Coquelicot.
From Verif Require Import Base BaseLemmas DynModel DynSpec DynProofs DynProofs5 ParamModel ParamSpec FaModel TrajModel TrajSpec TrajProofs6 DmpModel DmpSpec DmpProofs7 CppModel CppSpec TaskModel AffineSpec
  ExploreSpec ViaSpec ViaProofs ViaExamples ReproSpec ReproProofs ReproProofs2 ReproProofs3.
Open Scope string_scope.
Open Scope R_scope.

(** Two DMPs that differ in their function approximators only, or whose forcing terms are suppressed or not: if the forcing terms
    differ by at most phi, then positions differ by at most phi / a^2, velocities by 2 phi / (a tau) and accelerations by 4 phi / tau^2,
    for all times, on every grid with short enough steps. *)
Theorem C109_forcing : forall pf m fs ts sup sup' r r' i a b phi, let m' := upd_fas m fs in wf pf m -> wf pf m' -> (i < m_dim m)%nat ->
  damped m i a b -> steps_upto b ts -> ana pf m ts sup = Ok r -> ana pf m' ts sup' = Ok r' ->
  (forall k, (k < length ts)%nat -> Rabs (at_ (a_forcing r') k i - at_ (a_forcing r) k i) <= phi) ->
  forall k, (k < length ts)%nat ->
    Rabs (yv (a_xs r') k i - yv (a_xs r) k i) <= phi / (a * a) /\
    Rabs (yv (a_xds r') k i - yv (a_xds r) k i) <= 2 * phi / (a * m_tau m) /\
    Rabs (zv (m_dim m) (a_xds r') k i / m_tau m - zv (m_dim m) (a_xds r) k i / m_tau m) <= 4 * phi / (m_tau m * m_tau m).
Proof. exact forced_apart. Qed.
Print Assumptions C109_forcing.

(** A mass on a critically damped spring with rate 2, and one line as forcing term. *)
Definition r_dmp (o : R) : dmp :=
  Dmp 1 1 (0 :: 0 :: 0 :: 0 :: 1 :: 0 :: nil) (Some (0 :: nil)) (1 :: nil) (Some (v_fa o :: nil)) nil (Dsys 1 (0 :: 0 :: nil) (0 :: nil) (PScal 4) (PScal 4) (PScal 1) 1) None
      (SubT (new_time 1 false)) (SubE (Esys 1 (1 :: nil) (0 :: nil) (PScal 1))) None false NoScaling None None.
Definition r_times : list R := (0 :: 1 / 2 :: 1 :: nil)%list.
Lemma r_wf o : wf v_pf (r_dmp o).
Proof.
  unfold wf. cbn -[py_predict].
  split; [lra|]. split; [reflexivity|]. split; [intros y E; injection E as <-; reflexivity|]. split; [discriminate|]. split; [congruence|].
  split; [reflexivity|]. split; [reflexivity|]. split; [reflexivity|]. split; [exact I|]. split; [exact I|]. split; [exact I|]. split; [intros; lra|]. split; [exact I|]. split; [exact I|].
  split; [split; [cbn; lra|reflexivity]|]. split; [reflexivity|]. split; [split; [cbn; lra|split; [reflexivity|exact I]]|]. split; [reflexivity|].
  split; [right; cbn; lia|]. intros [|i] f E; [|destruct i; discriminate]. injection E as <-. intros _ ph. exists o. apply v_predict.
Qed.
Lemma r_damped o : damped (r_dmp o) 0 2 (1 / 2).
Proof. unfold damped. cbn. repeat split; lra. Qed.
Lemma r_steps : steps_upto (1 / 2) r_times.
Proof. intros [|[|k]] Hk; cbn in *; [lra|lra|lia]. Qed.
Lemma r_parts o r : rollout_spec v_pf (r_dmp o) r_times false r -> forall k, (k < 3)%nat ->
  Rabs (pv 1 (a_xs r) k) <= 1 /\ Rabs (av 1 (a_xs r) k * DmpSpec.factor (r_dmp o) 0) <= 1 /\ at_ (a_forcing r) k 0 = o * (av 1 (a_xs r) k * DmpSpec.factor (r_dmp o) 0).
Proof.
  intros (_ & _ & _ & _ & _ & (ps & pds & Ep & Hp) & (gs & gds & Eg & Hg) & _ & _ & Hf & _) k Hk. set (m := r_dmp o) in *.
  change (m_dim m) with 1%nat in *. change (length r_times) with 3%nat in *. specialize (Hp k Hk). specialize (Hg k Hk).
  destruct (Hf k 0%nat Hk ltac:(lia)) as [F1 F2].
  change (pred_val v_pf m (pv 1 (a_xs r) k) 0) with (match v_pf 0%nat (f_model (v_fa o)) (pv 1 (a_xs r) k) with Ok v => v | Err _ => 0 end) in F1. rewrite v_predict in F1.
  split; [|split]; [| |rewrite F2, F1; ring].
  - rewrite (proj1 Hp). change (m_phase m) with (SubT (new_time 1 false)) in Ep. cbn [sub_ana] in Ep. rewrite t_ana_ok in Ep by lra. injection Ep as <- _.
    destruct k as [|[|[|k]]]; [..|lia]; unfold at_; cbn; apply Rabs_le; unfold Rmin; destruct Rle_dec; lra.
  - assert (E1 : DmpSpec.factor m 0 = 1) by reflexivity. rewrite E1, Rmult_1_r, (proj1 Hg).
    change (m_gating m) with (SubE (Esys 1 (1 :: nil) (0 :: nil) (PScal 1))) in Eg. cbn [sub_ana] in Eg. rewrite e_ana_ok in Eg by (cbn; auto).
    injection Eg as <- _.
    assert (X : forall u, 0 <= u -> Rabs ((1 - 0) * exp (- 1 * u / 1) + 0) <= 1).
    { intros u Hu. replace ((1 - 0) * exp (- 1 * u / 1) + 0) with (exp (- 1 * u / 1)) by ring. rewrite Rabs_pos_eq by (left; apply exp_pos). rewrite <- exp_0 at 2.
      destruct Hu as [Hu|<-]; [left; apply exp_increasing; lra|right; f_equal; lra]. }
    destruct k as [|[|[|k]]]; [..|lia]; unfold at_, eX; cbn; apply X; lra.
Qed.
Example C109_forcing_case : exists r r', wf v_pf (r_dmp 1) /\ wf v_pf (upd_fas (r_dmp 1) (Some (v_fa 3 :: nil)%list)) /\ damped (r_dmp 1) 0 2 (1 / 2) /\ steps_upto (1 / 2) r_times /\
  ana v_pf (r_dmp 1) r_times false = Ok r /\ ana v_pf (upd_fas (r_dmp 1) (Some (v_fa 3 :: nil)%list)) r_times false = Ok r' /\
  forall k, (k < length r_times)%nat -> Rabs (at_ (a_forcing r') k 0 - at_ (a_forcing r) k 0) <= 2.
Proof.
  change (upd_fas (r_dmp 1) (Some (v_fa 3 :: nil)%list)) with (r_dmp 3).
  destruct (ana_total v_pf (r_dmp 1) r_times false (r_wf 1) ltac:(discriminate)) as (r & Er & Sr). destruct (ana_total v_pf (r_dmp 3) r_times false (r_wf 3) ltac:(discriminate)) as (r' & Er' & Sr').
  exists r, r'. split; [apply r_wf|]. split; [apply r_wf|]. split; [apply r_damped|]. split; [exact r_steps|]. split; [exact Er|]. split; [exact Er'|].
  intros k Hk. destruct (r_parts 1 r Sr k Hk) as (_ & A1 & ->). destruct (r_parts 3 r' Sr' k Hk) as (_ & A3 & ->).
  assert (E : av 1 (a_xs r') k = av 1 (a_xs r) k).
  { destruct Sr as (_ & _ & _ & _ & _ & _ & (gs & gds & Eg & Hg) & _). destruct Sr' as (_ & _ & _ & _ & _ & _ & (gs' & gds' & Eg' & Hg') & _).
    change (m_gating (r_dmp 3)) with (m_gating (r_dmp 1)) in Eg'. rewrite Eg in Eg'. injection Eg' as <- <-.
    etransitivity; [exact (proj1 (Hg' k Hk))|symmetry; exact (proj1 (Hg k Hk))]. }
  rewrite E. change (DmpSpec.factor (r_dmp 3) 0) with (DmpSpec.factor (r_dmp 1) 0). set (g := av 1 (a_xs r) k * DmpSpec.factor (r_dmp 1) 0) in *.
  replace (3 * g - 1 * g) with (2 * g) by ring. rewrite Rabs_mult, (Rabs_pos_eq 2) by lra. lra.
Qed.

(** Exploration: parameters of the function approximators that differ by at most e give movements whose positions differ by at most
    c g e / a^2, where c bounds the gating and the scaling, and g is 2 for LWRs and the number of basis functions for RBFNs. *)
Theorem C109_exploration : forall kinds m x y e ts i n a b c, let pf := py_predict exp kinds in 0 <= e -> wf pf m -> selectable_dmp (pdmp_of m) -> linear_params kinds m ->
  ~ In "goal" (m_sel m) -> basis_upto m i n -> dmp_size (pdmp_of m) = Ok (length x) -> within e x y -> ts <> nil -> (i < m_dim m)%nat -> damped m i a b -> steps_upto b ts ->
  exists mx my rx ry, m_set_params m x = (mx, Ok tt) /\ m_set_params m y = (my, Ok tt) /\ ana pf mx ts false = Ok rx /\ ana pf my ts false = Ok ry /\
    ((forall k, (k < length ts)%nat -> Rabs (pv (m_dim m) (a_xs rx) k) <= 1 /\ Rabs (av (m_dim m) (a_xs rx) k * DmpSpec.factor m i) <= c) ->
    let phi := c * (gain (kinds i) n * e) in let tau := m_tau m in
    forall k, (k < length ts)%nat ->
    Rabs (yv (a_xs ry) k i - yv (a_xs rx) k i) <= phi / (a * a) /\
    Rabs (yv (a_xds ry) k i - yv (a_xds rx) k i) <= 2 * phi / (a * tau) /\
    Rabs (zv (m_dim m) (a_xds ry) k i / tau - zv (m_dim m) (a_xds rx) k i / tau) <= 4 * phi / (tau * tau)).
Proof. exact explored. Qed.
Print Assumptions C109_exploration.
Example C109_exploration_case : exists rx, let m := r_dmp 1 in wf v_pf m /\ selectable_dmp (pdmp_of m) /\ linear_params v_kinds m /\ ~ In "goal" (m_sel m) /\ basis_upto m 0 1 /\
  dmp_size (pdmp_of m) = Ok (length (2 :: nil)%list) /\ within 1 (2 :: nil)%list (3 :: nil)%list /\ damped m 0 2 (1 / 2) /\ steps_upto (1 / 2) r_times /\
  ana v_pf (fst (m_set_params m (2 :: nil)%list)) r_times false = Ok rx /\
  forall k, (k < length r_times)%nat -> Rabs (pv (m_dim m) (a_xs rx) k) <= 1 /\ Rabs (av (m_dim m) (a_xs rx) k * DmpSpec.factor m 0) <= 1.
Proof.
  destruct (ana_total v_pf (r_dmp 2) r_times false (r_wf 2) ltac:(discriminate)) as (r & Er & Sr). exists r. cbv zeta.
  split; [apply r_wf|]. split; [exact (v_selectable nil NoScaling 1 1)|]. split; [exact (v_linear nil NoScaling 1 1)|]. split; [intros []|]. split.
  { intros fs f k c E1 E2 _ E3. injection E1 as <-. injection E2 as <-. injection E3 as <- _. lia. }
  split; [reflexivity|]. split; [constructor; [apply Rabs_le; lra|constructor]|]. split; [apply r_damped|]. split; [exact r_steps|]. split; [exact Er|].
  intros k Hk. destruct (r_parts 2 r Sr k Hk) as (P & A & _). split; [exact P|exact A].
Qed.

(** Reproduction: if the function approximators miss the targets of a demonstration by at most eps, and the derivatives of the
    demonstration are consistent up to p and q, then the movement stays within E of the demonstration. *)
Theorem C109_demonstration : forall pf m t phs tg r i a b p q v eps c, wf pf m -> demo (m_dim m) t -> tj_ts t <> nil -> targets pf m t = Ok (phs, tg) ->
  (i < m_dim m)%nat -> damped m i a b -> steps_upto b (tj_ts t) -> nearly_euler t i p q v ->
  nth i (d_init (m_spring m)) 0 = at_ (mrows (tj_ys t)) 0 i -> nth (m_dim m + i) (d_init (m_spring m)) 0 = 0 ->
  residual pf m phs tg i eps -> ana pf m (tj_ts t) false = Ok r -> 0 <= c ->
  (forall k, (k < length (tj_ts t))%nat -> Rabs (av (m_dim m) (a_xs r) k * DmpSpec.factor m i) <= c) ->
  let tau := m_tau m in let E := (c * eps + tau * tau * q + 2 * a * tau * p) / (a * a) + tau * v / a in
  forall k, (k < length (tj_ts t))%nat ->
    Rabs (yv (a_xs r) k i - at_ (mrows (tj_ys t)) k i) <= E /\
    Rabs (yv (a_xds r) k i - at_ (mrows (tj_yds t)) k i) <= 2 * a * E / tau /\
    Rabs (zv (m_dim m) (a_xds r) k i / tau - at_ (mrows (tj_ydds t)) k i) <= 4 * (a * a) * E / (tau * tau).
Proof. exact reproduced. Qed.
Print Assumptions C109_demonstration.

(** Learning from a smooth demonstration: training succeeds, and the movement of the trained DMP differs from the demonstration by at
    most E, which goes to the error of the fit divided by a^2 as the steps become short. *)
Theorem C109_trained : forall kinds ns h lam ty t fas kw d b,
  (forall i, kinds i <> KOther) -> (forall i, (0 < ns i)%nat) -> (forall i, 0 < h i < 1) -> (forall i, 0 < lam i) ->
  ty = Kulvicius \/ ty = Countdown -> plain_kw kw -> opt (k_scaling kw) NoScaling = NoScaling -> opt (k_alpha kw) (PScal 20) = PScal d ->
  demo (tj_dim t) t -> 0 <= hd 0 (tj_ts t) < last (tj_ts t) 0 -> (tj_dim t <= length fas)%nat -> Forall (fun f => is_trained f = false) fas ->
  0 <= b -> steps_upto b (tj_ts t) -> 0 < d -> d * b <= 2 * last (tj_ts t) 0 ->
  let pf := py_predict exp kinds in let tf := trainer kinds ns h lam in
  exists m phs tg q, from_traj pf tf ty t (Some fas) kw = Ok m /\ targets pf m t = Ok (phs, tg) /\ movement pf m (tj_ts t) = Ok q /\ demo (tj_dim t) q /\ tj_ts q = tj_ts t /\
    forall i eps A J, (i < tj_dim t)%nat -> residual pf m phs tg i eps -> 0 <= A -> 0 <= J -> sampled_from t i A J ->
    let tau := last (tj_ts t) 0 in let a := d / 2 in
    let E := (eps + tau * tau * (J * b / 2) + 2 * a * tau * (A * b / 2)) / (a * a) + tau * Rabs (at_ (mrows (tj_yds t)) 0 i) / a in
    forall k, (k < length (tj_ts t))%nat ->
      Rabs (at_ (mrows (tj_ys q)) k i - at_ (mrows (tj_ys t)) k i) <= E /\
      Rabs (at_ (mrows (tj_yds q)) k i - at_ (mrows (tj_yds t)) k i) <= 2 * a * E / tau /\
      Rabs (at_ (mrows (tj_ydds q)) k i - at_ (mrows (tj_ydds t)) k i) <= 4 * (a * a) * E / (tau * tau).
Proof.
  intros kinds ns h lam ty t fas kw d b Hk Hn Hh Hl Hty Kw Ks Ka Dm H0 F1 F2 Hb Hs Hd Hdb pf tf.
  destruct (learned kinds ns h lam Hk Hn Hh Hl ty t fas kw d b Hty Kw Ks Ka Dm H0 F1 F2 Hs Hd Hdb) as (m & phs & tg & q & E1 & E2 & E3 & E4 & E5 & H).
  exists m, phs, tg, q. do 5 (split; [assumption|]). intros i eps A J Hi Hr HA HJ Sm.
  exact (H i eps _ _ _ Hi Hr (smooth_euler t i A J b HA HJ Hb Hs Sm)).
Qed.
Print Assumptions C109_trained.

(** Minimum-jerk demonstrations: with the distance L and the duration D, the movement stays within (eps + (30 + 6 a) L b / D) / a^2;
    with the default damping coefficient that is eps / 100 + 0.9 L b / D. *)
Theorem C109_min_jerk : forall kinds ns h lam ty ts y y' t fas kw d b,
  (forall i, kinds i <> KOther) -> (forall i, (0 < ns i)%nat) -> (forall i, 0 < h i < 1) -> (forall i, 0 < lam i) ->
  ty = Kulvicius \/ ty = Countdown -> plain_kw kw -> opt (k_scaling kw) NoScaling = NoScaling -> opt (k_alpha kw) (PScal 20) = PScal d ->
  length y' = length y -> nth 0 ts 0 = 0 -> 0 < last ts 0 -> from_min_jerk ts y y' = Ok t ->
  (length y <= length fas)%nat -> Forall (fun f => is_trained f = false) fas ->
  0 <= b -> steps_upto b ts -> 0 < d -> d * b <= 2 * last ts 0 ->
  let pf := py_predict exp kinds in let tf := trainer kinds ns h lam in
  exists m phs tg q, from_traj pf tf ty t (Some fas) kw = Ok m /\ targets pf m t = Ok (phs, tg) /\ movement pf m ts = Ok q /\ demo (length y) q /\ tj_ts q = ts /\
    forall i eps, (i < length y)%nat -> residual pf m phs tg i eps ->
    let D := last ts 0 in let L := Rabs (nth i y' 0 - nth i y 0) in let a := d / 2 in
    let E := (eps + (30 + 6 * a) * (L * b / D)) / (a * a) in
    forall k, (k < length ts)%nat ->
      Rabs (at_ (mrows (tj_ys q)) k i - at_ (mrows (tj_ys t)) k i) <= E /\
      Rabs (at_ (mrows (tj_yds q)) k i - at_ (mrows (tj_yds t)) k i) <= 2 * a * E / D /\
      Rabs (at_ (mrows (tj_ydds q)) k i - at_ (mrows (tj_ydds t)) k i) <= 4 * (a * a) * E / (D * D).
Proof.
  intros kinds ns h lam ty ts y y' t fas kw d b Hk Hn Hh Hl Hty Kw Ks Ka Ly H0 HD Et F1 F2 Hb Hs Hd Hdb pf tf.
  assert (Hne : ts <> nil) by (intros ->; cbn in HD; lra).
  destruct (min_jerk_smooth ts y y' t Ly Hne H0 HD Et) as (Dm & Ts & Sm). pose proof (proj1 Dm) as Dt.
  destruct (C109_trained kinds ns h lam ty t fas kw d b) as (m & phs & tg & q & E1 & E2 & E3 & E4 & E5 & H); try rewrite Dt; try rewrite Ts; trivial.
  { destruct ts as [|t0 ts']; [congruence|]. cbn [hd nth] in *. lra. }
  rewrite Dt, Ts in *. exists m, phs, tg, q. do 5 (split; [assumption|]). intros i eps Hi Hr D L a E.
  destruct (Sm i Hi) as [Sa V0]. cbv zeta in Sa. fold D L in Sa.
  assert (L0 : 0 <= L) by apply Rabs_pos. assert (D0 : 0 < D) by exact HD.
  assert (HA : 0 <= 6 * L / (D * D)) by (apply Rmult_le_pos; [lra|left; apply Rinv_0_lt_compat; now apply Rmult_lt_0_compat]).
  assert (HJ : 0 <= 60 * L / (D * D * D)) by (apply Rmult_le_pos; [lra|left; apply Rinv_0_lt_compat; repeat apply Rmult_lt_0_compat; exact D0]).
  pose proof (H i eps _ _ Hi Hr HA HJ Sa) as Q. cbv zeta in Q. fold D a in Q. rewrite V0, Rabs_R0 in Q.
  replace ((eps + D * D * (60 * L / (D * D * D) * b / 2) + 2 * a * D * (6 * L / (D * D) * b / 2)) / (a * a) + D * 0 / a) with E in Q; [exact Q|].
  unfold E, a. field. split; lra.
Qed.
Print Assumptions C109_min_jerk.
(** some eps always bounds the error of the fit *)
Lemma residual_some pf m phs tg i : exists eps, residual pf m phs tg i eps.
Proof.
  unfold residual. set (f := fun k => Rabs (pred_val pf m (nth k phs 0) i - at_ tg k i)). 
  assert (H : forall n, exists e, forall k, (k < n)%nat -> f k <= e).
  { induction n as [|n [e IH]]; [exists 0; intros; lia|]. exists (Rmax e (f n)). intros k Hk. destruct (Nat.eq_dec k n) as [->|N]; [apply Rmax_r|].
    eapply Rle_trans; [apply IH; lia|apply Rmax_l]. }
  destruct (H (length phs)) as [e He]. exists e. exact He.
Qed.
Definition r_kw : dmp_kw := Kw None (Some (PScal 4)) None None None None None None.
Example C109_min_jerk_case : exists t, from_min_jerk r_times (0 :: 5 :: nil)%list (1 :: 3 :: nil)%list = Ok t /\ plain_kw r_kw /\ opt (k_scaling r_kw) NoScaling = NoScaling /\
  opt (k_alpha r_kw) (PScal 20) = PScal 4 /\ nth 0 r_times 0 = 0 /\ 0 < last r_times 0 /\ steps_upto (1 / 2) r_times /\ 4 * (1 / 2) <= 2 * last r_times 0 /\
  (forall pf m phs tg i, exists eps, residual pf m phs tg i eps) /\ demo 2 t /\ sampled_from t 1 12 120.
Proof.
  destruct (from_min_jerk_ok r_times (0 :: 5 :: nil)%list (1 :: 3 :: nil)%list eq_refl ltac:(discriminate) ltac:(cbn; lra)) as (t & Et & _). exists t.
  destruct (min_jerk_smooth r_times (0 :: 5 :: nil)%list (1 :: 3 :: nil)%list t eq_refl ltac:(discriminate) eq_refl ltac:(cbn; lra) Et) as (Dm & _ & Sm).
  split; [exact Et|]. split; [repeat split; now exists 4|]. split; [reflexivity|]. split; [reflexivity|]. split; [reflexivity|]. split; [cbn; lra|]. split; [exact r_steps|].
  split; [cbn; lra|]. split; [exact residual_some|]. split; [exact Dm|]. destruct (Sm 1%nat ltac:(cbn; lia)) as [S1 _]. cbv zeta in S1. cbn [nth last r_times] in S1.
  replace (Rabs (3 - 5)) with 2 in S1 by (rewrite Rabs_minus_sym, Rabs_pos_eq; lra). replace (6 * 2 / (1 * 1)) with 12 in S1 by field. replace (60 * 2 / (1 * 1 * 1)) with 120 in S1 by field. exact S1.
Qed.
