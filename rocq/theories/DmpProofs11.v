(** Proofs about DMPs: scaling of time fails for sigmoid gating and damping systems. *)
From Coq Require Import String.
From Verif Require Import Base BaseLemmas DynModel DynSpec DynProofs DynProofs2 DynProofs7 ParamModel TrajModel DmpModel DmpSpec DmpProofs DmpProofs2 DmpProofs3 DmpProofs4 DmpProofs5 DmpProofs7 DmpProofs9 DmpProofs10.
Open Scope R_scope.

(** a function approximator which always predicts 1 *)
Definition pf_one : nat -> list (string * pval) -> R -> res R := fun _ _ _ => Ok 1.
Definition fa_one : fa := Fa [] (Some 1%nat) None.

Lemma sX_at s t : length (g_init s) = 1%nat -> nth 0 (sX s t) 0 = sK s 0 / (1 + sB s 0 * exp (- par_val (g_rate s) 0 * t)).
Proof. intros H. unfold sX. rewrite H. reflexivity. Qed.

Lemma gating_differs s : for_gating 1 0.1 1 = Ok s ->
  forall xs xds xs' xds', sub_ana (SubS s) [0; 1; 2; 3] = Ok (xs, xds) ->
  sub_ana (sub_set_tau (SubS s) (sub_tau (SubS s) * 2)) (map (Rmult 2) [0; 1; 2; 3]) = Ok (xs', xds') ->
  at_ xs 1 0 <> at_ xs' 1 0.
Proof.
  intros Es xs xds xs' xds' E E'.
  destruct (for_gating_ok 1 0.1 1 ltac:(lra) ltac:(lra)) as (s0 & Es0 & Ei & Et & rate & infl & Er & Ef & Hneg & E1 & E2).
  rewrite Es in Es0. injection Es0 as <-.
  pose proof gating_d_pos as Hd. set (d := gating_d) in *.
  assert (Hi : forall i, (i < 1)%nat -> nth i (g_init s) 0 <> 0) by (intros [|i] Hi; [rewrite Ei; cbn; lra|lia]).
  assert (L1 : length (g_init s) = 1%nat) by now rewrite Ei.
  assert (F : forall ts, s_ana s ts = Ok (map (sX s) ts, map (sXd s) ts)).
  { apply s_solves; rewrite ?L1, ?Er, ?Ef; trivial; exact I. }
  cbn [sub_ana sub_set_tau sub_tau] in *. rewrite F in E. injection E as <- _.
  set (s' := Ssys (g_tau s * 2) (g_init s) (g_rate s) (g_infl s)) in *.
  assert (F' : forall ts, s_ana s' ts = Ok (map (sX s') ts, map (sXd s') ts)).
  { apply s_solves; cbn; rewrite ?L1, ?Er, ?Ef; trivial; exact I. }
  rewrite F' in E'. injection E' as <- _. unfold at_. cbn [map nth].
  rewrite !sX_at by trivial. unfold sK, sB. cbn [s' g_init g_rate g_infl g_tau]. rewrite Er, Ef, Ei, Et. cbn [par_val nth repeat].
  rewrite E1. replace (exp (rate * (1 * 2 * infl))) with (d * d) by (rewrite <- E1, <- exp_plus; f_equal; ring).
  set (q := ((1 + d) / 0.1 - 1)) in *. 
  replace (exp (- rate * 1)) with (q / d) by (rewrite <- E2; f_equal; ring).
  replace (exp (- rate * (2 * 1))) with (q / d * (q / d)) by (rewrite <- E2, <- exp_plus; f_equal; ring).
  replace (d * (q / d)) with q by (field; lra). replace (d * d * (q / d * (q / d))) with (q * q) by (field; lra).
  assert (Hq : q = 9 + 10 * d) by (unfold q; lra).
  assert (d < 1) by (unfold d, gating_d; lra).
  intros H0. rewrite !Rmult_1_l in H0.
  apply (f_equal (fun x => x * (1 + q) * (1 + q * q))) in H0.
  replace ((1 + d) / (1 + q) * (1 + q) * (1 + q * q)) with ((1 + d) * (1 + q * q)) in H0 by (field; nra).
  replace ((1 + d * d) / (1 + q * q) * (1 + q) * (1 + q * q)) with ((1 + d * d) * (1 + q)) in H0 by (field; nra).
  rewrite Hq in H0. nra.
Qed.

(** the types with a sigmoid gating system *)
Lemma scaling_sigmoid ty m : ty = Kulvicius \/ ty = Countdown ->
  new_dmp ty 1 [0] [1] (Some [fa_one]) no_kw = Ok m ->
  wf pf_one m /\ exists m' r r', set_tau m (2 * m_tau m) = Ok m' /\ ana pf_one m [0; 1; 2; 3] false = Ok r /\
    ana pf_one m' (map (Rmult 2) [0; 1; 2; 3]) false = Ok r' /\
    exists k, (k < 4)%nat /\ yv (a_xs r') k 0 <> yv (a_xs r) k 0.
Proof.
  intros Hty En.
  destruct (new_dmp_ok pf_one ty 1 [0] [1] (Some [fa_one]) no_kw ltac:(lra) eq_refl) as (m0 & E0 & S & Sy & Pl & Ed & Et & Ea & Ey & Ef & Er & Esc & _).
  { repeat split. } { destruct Hty; subst; exact I. }
  { split; [right; cbn; lia|]. intros i f _ _ ph. now exists 1. }
  rewrite En in E0. injection E0 as <-.
  assert (Hreq : m_req m = false) by (rewrite Er; destruct Hty; subst; reflexivity).
  assert (W : wf pf_one m).
  { apply sound_wf; [exact S|]. split; [|rewrite Esc; discriminate]. rewrite Hreq, Esc. intros [H|H]; discriminate. }
  split; [exact W|].
  destruct (set_tau_wf 2 ltac:(lra) pf_one m W) as (m' & Em & W' & Ht').
  destruct (ana_total pf_one m [0; 1; 2; 3] false W ltac:(discriminate)) as (r & Hr & Sr).
  destruct (ana_total pf_one m' (map (Rmult 2) [0; 1; 2; 3]) false W' ltac:(discriminate)) as (r' & Hr' & Sr').
  exists m', r, r'. split; [exact Em|]. split; [exact Hr|]. split; [exact Hr'|].
  apply Classical_Prop.NNPP. intros Hno.
  assert (Hall : forall k, (k < length [0; 1; 2; 3])%nat -> yv (a_xs r') k 0 = yv (a_xs r) k 0).
  { intros k Hk. apply Classical_Prop.NNPP. intros H. apply Hno. exists k. now split. }
  assert (Hd1 : m_dim m = 1%nat) by exact Ed.
  destruct (scaled_needs 2 ltac:(lra) pf_one m W _ _ r r' m' Em Sr Sr' 1 0 ltac:(cbn; lia) ltac:(lia) ltac:(cbn; lra) ltac:(cbn; lra) Hall) as [Ez Eacc].
  apply (set_tau_form 2 pf_one _ W) in Em. rewrite Hd1 in *.
  destruct Sr as (_ & _ & _ & _ & _ & (ps & pds & EP & HP) & (as_ & ads & EA & HA) & HG & HD & HF & _).
  destruct Sr' as (_ & _ & _ & _ & _ & (ps' & pds' & EP' & HP') & (as' & ads' & EA' & HA') & HG' & HD' & HF' & _).
  replace (m_dim m') with 1%nat in * by now rewrite Em. rewrite Hd1 in *.
  rewrite map_length in *. cbn [length] in *.
  (* the ingredients *)
  assert (Hsub : exists ga, for_gating 1 0.1 1 = Ok ga /\ m_gating m = SubS ga /\ m_damping m = None /\ exists e, m_goal m = Some (SubE e)).
  { destruct (for_gating 1 0.1 1) as [ga|] eqn:Eg.
    - exists ga. split; [reflexivity|]. unfold new_dmp in En. destruct Hty; subst ty; cbn [default_subs] in En; rewrite Eg in En;
      cbn [bind] in En; injection En as <-; cbn; (split; [reflexivity|]); (split; [reflexivity|]); eexists; reflexivity.
    - exfalso. unfold new_dmp in En. destruct Hty; subst ty; cbn [default_subs] in En; rewrite Eg in En; discriminate. }
  destruct Hsub as (ga & Eg & Mga & Mda & e & Mgo).
  assert (Hgo : gv 1 (a_xs r') 1 0 = gv 1 (a_xs r) 1 0).
  { rewrite Mgo in HG. replace (m_goal m') with (Some (sub_set_tau (SubE e) (sub_tau (SubE e) * 2))) in HG' by (rewrite Em, Mgo; reflexivity).
    destruct HG as (gs & gds & EG & HG). destruct HG' as (gs' & gds' & EG' & HG').
    assert (Og : sub_tau (SubE e) <> 0).
    { destruct W as (_ & _ & _ & _ & _ & _ & _ & _ & _ & _ & _ & _ & Og & _). rewrite Mgo in Og. apply Og. }
    rewrite (sub_scale 2 ltac:(lra) _ _ _ _ Og I EG) in EG'. injection EG' as <- _.
    rewrite (proj1 (HG 1%nat 0%nat ltac:(lia) ltac:(lia))). now rewrite (proj1 (HG' 1%nat 0%nat ltac:(lia) ltac:(lia))). }
  assert (Hcv : cv 1 (a_xs r') 1 0 = cv 1 (a_xs r) 1 0).
  { replace (m_damping m') with (m_damping m) in HD' by now rewrite Em. rewrite Mda in HD, HD'.
    rewrite (proj1 (HD 1%nat 0%nat ltac:(lia) ltac:(lia))), (proj1 (HD' 1%nat 0%nat ltac:(lia) ltac:(lia))). now rewrite Em. }
  rewrite Hgo, Hcv in Eacc.
  assert (Hfo : at_ (a_forcing r') 1 0 = at_ (a_forcing r) 1 0).
  { unfold accel in Eacc. apply Rplus_eq_reg_l in Eacc. rewrite Et in Eacc. lra. }
  destruct (HF 1%nat 0%nat ltac:(lia) ltac:(lia)) as [F1 F2]. destruct (HF' 1%nat 0%nat ltac:(lia) ltac:(lia)) as [F1' F2'].
  rewrite F2, F2', F1, F1' in Hfo.
  assert (Pv : forall ph, pred_val pf_one m ph 0 = 1 /\ pred_val pf_one m' ph 0 = 1).
  { intros ph. unfold pred_val. rewrite Em. cbn. unfold fas_of, pdmp_of. cbn. rewrite Ef. now split. }
  assert (Fv : factor m 0 = 1 /\ factor m' 0 = 1).
  { unfold factor. replace (m_scaling m') with (m_scaling m) by now rewrite Em. rewrite Esc. now split. }
  rewrite (proj1 (Pv _)), (proj2 (Pv _)), (proj1 Fv), (proj2 Fv), !Rmult_1_l, !Rmult_1_r in Hfo.
  rewrite (proj1 (HA 1%nat ltac:(lia))), (proj1 (HA' 1%nat ltac:(lia))) in Hfo.
  replace (m_gating m') with (sub_set_tau (SubS ga) (sub_tau (SubS ga) * 2)) in EA' by (rewrite Em, Mga; reflexivity).
  rewrite Mga in EA. eapply gating_differs; eauto.
Qed.

(** the types with a damping system *)
Lemma scaling_damping ns m : new_dmp (Sct23 ns true) 1 [0] [1] None no_kw = Ok m -> forall m1, set_y0 m [0] = Ok m1 ->
  wf pf_one m1 /\ exists ts m' r r', set_tau m1 (2 * m_tau m1) = Ok m' /\ ana pf_one m1 ts false = Ok r /\
    ana pf_one m' (map (Rmult 2) ts) false = Ok r' /\
    exists k, (k < length ts)%nat /\ yv (a_xs r') k 0 <> yv (a_xs r) k 0.
Proof.
  intros En m1 E1.
  destruct (new_dmp_ok pf_one (Sct23 ns true) 1 [0] [1] None no_kw ltac:(lra) eq_refl) as (m0 & E0 & S & Sy & Pl & Ed & Et & Ea & Ey & Ef & Er & Esc & _).
  { repeat split. } { destruct ns; [|exact I]. intros [|i] Hi; cbn in *; [lra|lia]. } { exact I. }
  rewrite En in E0. injection E0 as <-.
  destruct (set_y0_sound pf_one m [0] S ltac:(now rewrite Ed)) as (m2 & E2 & S2 & Y2 & I2 & D2 & T2 & A2).
  { unfold goal_accepts. destruct ns; [right|left; now rewrite Er].
    unfold new_dmp in En. cbn in En. injection En as <-. cbn. intros [|i] Hi; cbn in *; [lra|lia]. }
  rewrite E1 in E2. injection E2 as <-.
  (* the parts of m1 *)
  assert (Hparts : exists h e, m_goal m1 = Some (SubR h) /\ m_damping m1 = Some (SubE e) /\ h_init h = [0] /\ h_right h = PVec [1] /\
    h_tau h = 1 /\ h_alpha h = PScal 10 /\
    e_tau e = 1 /\ e_init e = [0.1 * 20] /\ e_attr e = [20] /\ e_alpha e = PScal 4 /\ m_req m1 = negb ns /\ m_scaling m1 = NoScaling /\
    m_fas m1 = None /\ d_spring (m_spring m1) = PScal (20 * 20 / 4) /\ d_mass (m_spring m1) = PScal 1).
  { unfold new_dmp in En. cbn in En. injection En as <-. cbn in E1. destruct ns; cbn in E1; injection E1 as <-; cbn;
    do 2 eexists; repeat (split; [reflexivity|]); reflexivity. }
  destruct Hparts as (h & e & Mgo & Mda & Hi & Hr & Hh & Hal & He & Hei & Hea & Hel & Hreq & Hsc & Hfa & Hk & Hma).
  assert (W : wf pf_one m1).
  { apply sound_wf; [exact S2|]. split; [|rewrite Hsc; discriminate]. intros _. rewrite Y2. discriminate. }
  split; [exact W|].
  assert (Og : sub_ok (SubR h)).
  { destruct W as (_ & _ & _ & _ & _ & _ & _ & _ & _ & _ & _ & _ & Og & _). rewrite Mgo in Og. apply Og. }
  destruct Og as (Og1 & Og2 & Og3 & Og4). cbn in Og1.
  destruct (richards_exact h Og1 Og2 Og3 Og4) as (X & Xd & Hs & Hlim).
  destruct (Hlim 0%nat ltac:(rewrite Hi; cbn; lia)) as [Hl _]. rewrite Hh, Hal, Hr in Hl. cbn [par_val nth] in Hl.
  destruct Hl as [Htend _]; [lra|]. destruct (Htend 1 ltac:(lra)) as [T0 HT]. set (T := Rmax T0 1).
  assert (HT1 : 1 <= T) by apply Rmax_r.
  assert (HXT : nth 0 (X T) 0 <> 0).
  { specialize (HT T ltac:(apply Rmax_l)). unfold comp in HT. intros E. rewrite E in HT.
    rewrite Rabs_minus_sym, Rminus_0_r, Rabs_R1 in HT. lra. }
  set (ts := [0; T; T + 1; T + 2; T + 3]).
  destruct (set_tau_wf 2 ltac:(lra) pf_one m1 W) as (m' & Em & W' & Ht').
  destruct (ana_total pf_one m1 ts false W ltac:(discriminate)) as (r & Hra & Sr).
  destruct (ana_total pf_one m' (map (Rmult 2) ts) false W' ltac:(discriminate)) as (r' & Hra' & Sr').
  exists ts, m', r, r'. split; [exact Em|]. split; [exact Hra|]. split; [exact Hra'|].
  apply Classical_Prop.NNPP. intros Hno.
  assert (Hall : forall k, (k < length ts)%nat -> yv (a_xs r') k 0 = yv (a_xs r) k 0).
  { intros k Hlt. apply Classical_Prop.NNPP. intros H. apply Hno. exists k. now split. }
  assert (Hd1 : m_dim m1 = 1%nat) by now rewrite D2, Ed.
  destruct (scaled_needs 2 ltac:(lra) pf_one m1 W ts _ r r' m' Em Sr Sr' 2 0 ltac:(cbn; lia) ltac:(lia) ltac:(cbn; lra) ltac:(cbn; lra) Hall) as [Ez Eacc].
  apply (set_tau_form 2 pf_one _ W) in Em. rewrite Hd1 in *.
  destruct Sr as (_ & _ & _ & _ & _ & _ & _ & HG & HD & HF & H0 & HR & HS).
  destruct Sr' as (_ & _ & _ & _ & _ & _ & _ & HG' & HD' & HF' & _).
  replace (m_dim m') with 1%nat in * by now rewrite Em. rewrite Hd1 in *.
  rewrite map_length in *. change (length ts) with 5%nat in *.
  rewrite Mgo in HG. destruct HG as (gs & gds & EG & HG).
  assert (Hgo : gv 1 (a_xs r') 2 0 = gv 1 (a_xs r) 2 0).
  { replace (m_goal m') with (Some (sub_set_tau (SubR h) (sub_tau (SubR h) * 2))) in HG' by (rewrite Em, Mgo; reflexivity).
    destruct HG' as (gs' & gds' & EG' & HG').
    rewrite (sub_scale 2 ltac:(lra) (SubR h) _ _ _ Og1 I EG) in EG'. injection EG' as <- _.
    rewrite (proj1 (HG 2%nat 0%nat ltac:(lia) ltac:(lia))). now rewrite (proj1 (HG' 2%nat 0%nat ltac:(lia) ltac:(lia))). }
  assert (Hf0 : forall k, (k < 5)%nat -> at_ (a_forcing r) k 0 = 0).
  { intros k Hlt. destruct (HF k 0%nat Hlt ltac:(lia)) as [F1 F2]. rewrite F2, F1. unfold pred_val, fas_of, pdmp_of. cbn. rewrite Hfa. cbn. ring. }
  assert (Hf0' : at_ (a_forcing r') 2 0 = 0).
  { destruct (HF' 2%nat 0%nat ltac:(lia) ltac:(lia)) as [F1 F2]. rewrite F2, F1. unfold pred_val, fas_of, pdmp_of. cbn. 
    replace (m_fas m') with (m_fas m1) by now rewrite Em. rewrite Hfa. cbn. ring. }
  rewrite Hgo, Hf0', (Hf0 2%nat) in Eacc by lia.
  (* the damping coefficients differ *)
  assert (Hc : cv 1 (a_xs r) 2 0 <> cv 1 (a_xs r') 2 0).
  { replace (m_damping m') with (m_damping m1) in HD' by now rewrite Em. rewrite Mda in HD, HD'.
    destruct HD as (cs & cds & EC & HC). destruct HD' as (cs' & cds' & EC' & HC').
    rewrite (proj1 (HC 2%nat 0%nat ltac:(lia) ltac:(lia))), (proj1 (HC' 2%nat 0%nat ltac:(lia) ltac:(lia))).
    cbn [sub_ana] in EC, EC'. unfold e_ana in EC, EC'. rewrite Hei, Hea, Hel, He in EC, EC'. cbn [mapM seq length par_at nth_res nth_error bind] in EC, EC'.
    destruct (Req_EM_T 1 0) as [|_]; [lra|]. injection EC as <- _. injection EC' as <- _. unfold at_. cbn.
    assert (exp (- (4) * (2 * (T + 1)) / 1) < exp (- (4) * (T + 1) / 1)) by (apply exp_increasing; lra). lra. }
  (* the velocity is not zero *)
  assert (Hg : forall k, (k < 5)%nat -> gv 1 (a_xs r) k 0 = nth 0 (X (nth k ts 0)) 0).
  { intros k Hlt. rewrite (proj1 (HG k 0%nat Hlt ltac:(lia))). cbn [sub_ana] in EG. rewrite (proj1 Hs) in EG.
    assert (Egs : gs = map X ts) by congruence. rewrite Egs. unfold at_. now rewrite (nth_map_l _ _ _ 0). }
  assert (Htg : forall g, target m1 g 0 = g).
  { intros g. unfold target. rewrite Hreq, Y2, A2, Ea. destruct ns; cbn; ring. }
  assert (Hy0 : yv (a_xs r) 0 0 = 0 /\ zv 1 (a_xs r) 0 0 = 0).
  { destruct (H0 0%nat ltac:(lia)) as [-> ->]. rewrite I2, Ed. cbn. now split. }
  assert (HX0 : nth 0 (X 0) 0 = 0) by (rewrite (proj1 (proj2 Hs)), Hi; reflexivity).
  rewrite T2, Et in *.
  destruct Hy0 as [Y0 Z0]. destruct (HR 0%nat 0%nat ltac:(lia) ltac:(lia)) as [R1 R1']. destruct (HS 0%nat 0%nat ltac:(lia) ltac:(lia)) as [S1 S1'].
  rewrite Hg, Htg, Hf0, Y0, Z0 in R1' by lia. unfold accel in R1'. cbn [nth ts] in R1'. rewrite HX0 in R1'.
  rewrite R1, Z0, Y0 in S1. rewrite R1', Z0 in S1'.
  assert (Y1 : yv (a_xs r) 1 0 = 0) by (rewrite S1; unfold Rdiv; ring).
  assert (Z1 : zv 1 (a_xs r) 1 0 = 0) by (rewrite S1'; unfold Rdiv; ring).
  destruct (HR 1%nat 0%nat ltac:(lia) ltac:(lia)) as [R2 R2']. destruct (HS 1%nat 0%nat ltac:(lia) ltac:(lia)) as [S3 S3'].
  rewrite Hg, Htg, Hf0, Y1, Z1 in R2' by lia. unfold accel in R2'. rewrite T2, Hk, Hma in R2'. cbn [nth ts par_val] in R2'.
  rewrite R2', Z1 in S3'. cbn [nth ts] in S3'.
  assert (Z2 : zv 1 (a_xs r) 2 0 = 100 * nth 0 (X T) 0) by (rewrite S3'; field).
  unfold accel in Eacc. rewrite T2, Hma in Eacc. cbn [par_val] in Eacc.
  assert (Hprod : (cv 1 (a_xs r) 2 0 - cv 1 (a_xs r') 2 0) * zv 1 (a_xs r) 2 0 = 0) by lra.
  apply Rmult_integral in Hprod. destruct Hprod as [H|H]; [apply Hc; lra|]. rewrite Z2 in H. apply HXT. lra.
Qed.
