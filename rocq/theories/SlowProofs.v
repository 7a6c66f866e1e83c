(** Proofs: a demonstration at another speed gives the same movement at that speed. *)
From Coq Require Import String.
From Verif Require Import Base BaseLemmas DynModel DynSpec DynProofs DynProofs2 DynProofs5 ParamModel FaModel TrajModel DmpModel DmpSpec DmpProofs7 DmpProofs9 DmpProofs10
  CppModel CppSpec CppProofs6 CppProofs8 TaskModel AffineSpec AffineProofs4 SlowSpec.
Open Scope R_scope.

Section C.
Variable c : R.
Hypothesis Hc : 0 < c.

(** ** subsystems *)
Definition slow_sub (s s' : sub) : Prop := forall ts ps pds, sub_ana s ts = Ok (ps, pds) -> exists pds', sub_ana s' (map (Rmult c) ts) = Ok (ps, pds').
Lemma slow_time tau down : tau <> 0 -> slow_sub (SubT (new_time tau down)) (SubT (new_time (c * tau) down)).
Proof.
  intros Ht ts ps pds E. cbn [sub_ana] in *. rewrite t_ana_ok in E by exact Ht. injection E as <- <-.
  rewrite t_ana_ok by (apply Rmult_integral_contrapositive_currified; lra). rewrite !map_map. eexists. apply (f_equal Ok), (f_equal2 pair); [|reflexivity].
  apply map_ext. intros x. replace (c * x / (c * tau)) with (x / tau) by (field; lra). reflexivity.
Qed.
Lemma slow_exp tau y g al : tau <> 0 -> length g = length y -> slow_sub (SubE (Esys tau y g (PScal al))) (SubE (Esys (c * tau) y g (PScal al))).
Proof.
  intros Ht L ts ps pds E. cbn [sub_ana] in *. rewrite e_ana_ok in E by (cbn; auto). injection E as <- <-.
  rewrite e_ana_ok by (cbn; auto; apply Rmult_integral_contrapositive_currified; lra). rewrite !map_map. eexists. apply (f_equal Ok), (f_equal2 pair); [|reflexivity].
  apply map_ext. intros x. unfold eX. cbn [e_tau e_init e_attr e_alpha par_val]. apply map_ext. intros i. do 3 f_equal. field. lra.
Qed.
Lemma slow_gating tau s s' : 0 < tau -> for_gating tau 0.1 1 = Ok s -> for_gating (c * tau) 0.1 1 = Ok s' ->
  slow_sub (sub_set_tau (SubS s) tau) (sub_set_tau (SubS s') (c * tau)).
Proof.
  intros Ht Es Es'. assert (Ht' : 0 < c * tau) by now apply Rmult_lt_0_compat.
  destruct (for_gating_ok tau 0.1 1 Ht ltac:(lra)) as (s1 & E1 & I1 & T1 & r & q & R1 & Q1 & _ & B1 & X1). rewrite Es in E1. injection E1 as <-.
  destruct (for_gating_ok (c * tau) 0.1 1 Ht' ltac:(lra)) as (s2 & E2 & I2 & T2 & r' & q' & R2 & Q2 & _ & B2 & X2). rewrite Es' in E2. injection E2 as <-.
  assert (Er : r' * c = r).
  { rewrite <- X1 in X2. apply exp_inv in X2. apply (Rmult_eq_reg_r tau); [lra|lra]. }
  assert (P : forall s t, g_tau s = t -> sub_set_tau (SubS s) t = SubS s) by (intros s0 t0 <-; destruct s0; reflexivity). rewrite (P s tau T1), (P s' (c * tau) T2).
  intros ts ps pds E. cbn [sub_ana] in *.
  rewrite (s_ana_ok s) in E; [|rewrite R1; exact I|rewrite Q1; exact I|rewrite I1; intros [|i] Hi; cbn in *; [lra|lia]].
  rewrite (s_ana_ok s'); [|rewrite R2; exact I|rewrite Q2; exact I|rewrite I2; intros [|i] Hi; cbn in *; [lra|lia]].
  injection E as <- <-. rewrite !map_map. eexists. apply (f_equal Ok), (f_equal2 pair); [|reflexivity].
  apply map_ext. intros x. unfold sX. rewrite I1, I2. apply map_ext. intros i. unfold sK, sB. rewrite I1, I2, R1, R2, Q1, Q2, T1, T2. cbn [par_val]. rewrite B1, B2.
  replace (- r' * (c * x)) with (- r * x) by (rewrite <- Er; ring). reflexivity.
Qed.

(** ** rollouts *)
Record slower (m m' : dmp) : Prop := {
  sl_tau : m_tau m' = c * m_tau m; sl_dim : m_dim m' = m_dim m; sl_d : m_damping m = None; sl_d' : m_damping m' = None;
  sl_r : m_req m = false; sl_r' : m_req m' = false; sl_s : m_scaling m = NoScaling; sl_s' : m_scaling m' = NoScaling;
  sl_damp : d_damp (m_spring m') = d_damp (m_spring m); sl_spring : d_spring (m_spring m') = d_spring (m_spring m); sl_mass : d_mass (m_spring m') = d_mass (m_spring m);
  sl_init : d_init (m_spring m') = d_init (m_spring m);
  sl_phase : slow_sub (m_phase m) (m_phase m'); sl_gating : slow_sub (m_gating m) (m_gating m');
  sl_goal : exists g g', m_goal m = Some g /\ m_goal m' = Some g' /\ slow_sub g g' }.
Variable pf : nat -> list (string * pval) -> R -> res R.
Variables m m' : dmp.
Hypothesis K : slower m m'.
Hypothesis W : wf pf m.
Notation n := (m_dim m).
Variables (ts : list R) (r r' : ana_result).
Hypothesis Hr : rollout_spec pf m ts false r.
Hypothesis Hr' : rollout_spec pf m' (map (Rmult c) ts) false r'.

Lemma slow_parts k : (k < length ts)%nat -> pv n (a_xs r') k = pv n (a_xs r) k /\ av n (a_xs r') k = av n (a_xs r) k /\
  forall i, (i < n)%nat -> gv n (a_xs r') k i = gv n (a_xs r) k i /\ cv n (a_xs r') k i = cv n (a_xs r) k i.
Proof.
  intros Hk. destruct Hr as (_ & _ & _ & _ & _ & (ps & pds & EP & HP) & (as_ & ads & EA & HA) & HG & HD & _).
  destruct Hr' as (_ & _ & _ & _ & _ & (ps' & pds' & EP' & HP') & (as' & ads' & EA' & HA') & HG' & HD' & _).
  rewrite map_length in *. rewrite (sl_dim _ _ K) in *. rewrite (sl_d _ _ K) in HD. rewrite (sl_d' _ _ K) in HD'.
  destruct (sl_phase _ _ K _ _ _ EP) as (x1 & Q1). rewrite EP' in Q1. injection Q1 as -> ->.
  destruct (sl_gating _ _ K _ _ _ EA) as (x2 & Q2). rewrite EA' in Q2. injection Q2 as -> ->.
  split; [now rewrite (proj1 (HP k Hk)), (proj1 (HP' k Hk))|]. split; [now rewrite (proj1 (HA k Hk)), (proj1 (HA' k Hk))|].
  intros i Hi. split; [|rewrite (proj1 (HD k i Hk Hi)), (proj1 (HD' k i Hk Hi)); now rewrite (sl_damp _ _ K)].
  destruct (sl_goal _ _ K) as (g & g' & E1 & E2 & Sg). rewrite E1 in HG. rewrite E2 in HG'. destruct HG as (gs & gds & EG & HG). destruct HG' as (gs' & gds' & EG' & HG').
  destruct (Sg _ _ _ EG) as (x3 & Q3). rewrite EG' in Q3. injection Q3 as -> ->. now rewrite (proj1 (HG k i Hk Hi)), (proj1 (HG' k i Hk Hi)).
Qed.
Lemma slow_factor i : factor m' i = factor m i.
Proof. unfold factor. now rewrite (sl_s _ _ K), (sl_s' _ _ K). Qed.
Lemma slow_target g i : target m' g i = target m g i.
Proof. unfold target. now rewrite (sl_r _ _ K), (sl_r' _ _ K). Qed.
Lemma slow_rollouts : (forall ph i, (i < n)%nat -> pred_val pf m' ph i = pred_val pf m ph i) ->
  forall k i, (k < length ts)%nat -> (i < n)%nat ->
    yv (a_xs r') k i = yv (a_xs r) k i /\ zv n (a_xs r') k i = zv n (a_xs r) k i /\
    yv (a_xds r') k i = yv (a_xds r) k i / c /\ zv n (a_xds r') k i = zv n (a_xds r) k i / c.
Proof.
  intros Hp. assert (Ht : m_tau m <> 0) by apply W.
  destruct Hr as (_ & _ & _ & _ & _ & _ & _ & _ & _ & HF & H0 & HR & HS). destruct Hr' as (_ & _ & _ & _ & _ & _ & _ & _ & _ & HF' & H0' & HR' & HS').
  rewrite map_length in *. rewrite (sl_dim _ _ K) in *.
  assert (Hacc : forall k i, (k < length ts)%nat -> (i < n)%nat ->
     yv (a_xs r') k i = yv (a_xs r) k i -> zv n (a_xs r') k i = zv n (a_xs r) k i ->
     yv (a_xds r') k i = yv (a_xds r) k i / c /\ zv n (a_xds r') k i = zv n (a_xds r) k i / c).
  { intros k i Hk Hi Ey Ez. destruct (HR k i Hk Hi) as [R1 R2]. destruct (HR' k i Hk Hi) as [R1' R2']. destruct (slow_parts k Hk) as (Ep & Ea & Eg). destruct (Eg i Hi) as [G1 G2].
    assert (Ef : at_ (a_forcing r') k i = at_ (a_forcing r) k i).
    { destruct (HF k i Hk Hi) as [F1 F2]. destruct (HF' k i Hk Hi) as [F1' F2']. rewrite F2, F2', F1, F1', Ep, Ea, slow_factor, Hp by exact Hi. reflexivity. }
    rewrite R1, R1', R2, R2', Ey, Ez, G1, G2, Ef, slow_target, (sl_tau _ _ K). split; [field; lra|].
    unfold accel. rewrite (sl_tau _ _ K), (sl_spring _ _ K), (sl_mass _ _ K). assert (par_val (d_mass (m_spring m)) i <> 0) by now apply W. field. repeat split; trivial; lra. }
  assert (Hall : forall k i, (k < length ts)%nat -> (i < n)%nat -> yv (a_xs r') k i = yv (a_xs r) k i /\ zv n (a_xs r') k i = zv n (a_xs r) k i).
  { induction k as [|k IH]; intros i Hk Hi.
    - destruct (H0 i Hi) as [-> ->]. destruct (H0' i Hi) as [-> ->]. now rewrite (sl_init _ _ K).
    - destruct (IH i ltac:(lia) Hi) as [Ey Ez]. destruct (Hacc k i ltac:(lia) Hi Ey Ez) as [A1 A2].
      destruct (HS k i Hk Hi) as [-> ->]. destruct (HS' k i Hk Hi) as [-> ->]. rewrite !nth_scaled, Ey, Ez, A1, A2. split; field; lra. }
  intros k i Hk Hi. destruct (Hall k i Hk Hi) as [Ey Ez]. destruct (Hacc k i Hk Hi Ey Ez) as [A1 A2]. auto.
Qed.
End C.

(** ** targets *)
Lemma slow_targets c pf m m' t t' phs tg phs' tg' : 0 < c -> slower c m m' -> wf pf m -> wf pf m' -> slowed c (m_dim m) t t' -> tj_ts t <> [] ->
  targets pf m t = Ok (phs, tg) -> targets pf m' t' = Ok (phs', tg') -> phs' = phs /\ tg' = tg.
Proof.
  intros Hc K W W' (Dm & Dm' & Et & H) Hne E E'.
  assert (Hne' : tj_ts t' <> []) by (rewrite Et; intros Z; apply map_eq_nil in Z; contradiction).
  destruct (ana_total pf m (tj_ts t) false W Hne) as (r & Er & Sr). destruct (ana_total pf m' (tj_ts t') false W' Hne') as (r' & Er' & Sr').
  rewrite <- (sl_dim _ _ _ K) in Dm'.
  destruct (targets_spec pf m t phs tg r W Dm Hne E Er) as (Lp & Lt & T). destruct (targets_spec pf m' t' phs' tg' r' W' Dm' Hne' E' Er') as (Lp' & Lt' & T'). cbv zeta in *.
  rewrite Et in Sr'. rewrite Et, map_length in Lp', Lt', T'. rewrite (sl_dim _ _ _ K) in *. set (n := m_dim m) in *.
  pose proof (slow_parts c pf m m' K (tj_ts t) r r' Sr Sr') as SP. fold n in SP.
  split; apply (nth_ext _ _ 0 0) || idtac.
  - congruence.
  - intros k Hk. rewrite Lp' in Hk. rewrite (proj1 (T k Hk)), (proj1 (T' k Hk)). now apply SP.
  - apply (nth_ext _ _ [] []); [congruence|]. intros k Hk. rewrite Lt' in Hk. destruct (T k Hk) as (_ & L & Q). destruct (T' k Hk) as (_ & L' & Q').
    apply (nth_ext _ _ 0 0); [congruence|]. intros i Hi. rewrite L' in Hi. destruct (Q i Hi) as (A & F & V). destruct (Q' i Hi) as (A' & F' & V'). fold (at_ tg k i). fold (at_ tg' k i).
    destruct (SP k Hk) as (_ & Ea & Eg). destruct (Eg i Hi) as [G1 G2]. destruct (H k i Hk Hi) as (H1 & H2 & H3).
    rewrite Ea, (slow_factor c m m' K), G1, G2, (slow_target c m m' K), (sl_tau _ _ _ K), (sl_spring _ _ _ K), (sl_mass _ _ _ K), H1, H2, H3 in V'.
    replace (c * m_tau m * (c * m_tau m) * (at_ (mrows (tj_ydds t)) k i / (c * c))) with (m_tau m * m_tau m * at_ (mrows (tj_ydds t)) k i) in V' by (field; lra).
    replace (c * m_tau m * (at_ (mrows (tj_yds t)) k i / c)) with (m_tau m * at_ (mrows (tj_yds t)) k i) in V' by (field; lra).
    rewrite <- V in V'. rewrite !Rmult_assoc in V'. apply Rmult_eq_reg_r in V'; [exact V'|]. now apply Rmult_integral_contrapositive_currified.
Qed.

(** ** training *)
Section Train.
Variable kinds : nat -> fa_kind.
Variable ns : nat -> nat.
Variables h lam : nat -> R.
Hypothesis Hk : forall i, kinds i <> KOther.
Hypothesis Hn : forall i, (0 < ns i)%nat.
Hypothesis Hh : forall i, 0 < h i < 1.
Hypothesis Hlam : forall i, 0 < lam i.
Notation pf := (py_predict exp kinds).
Notation tf := (trainer kinds ns h lam).

Lemma last_map_mult c l : last (map (Rmult c) l) 0 = c * last l 0.
Proof. induction l as [|x [|y l] IH]; [cbn; ring|reflexivity|exact IH]. Qed.
Lemma slow_learned c n ty t t' fas fas' kw : 0 < c -> ty = Kulvicius \/ ty = Countdown -> plain_kw kw -> opt (k_scaling kw) NoScaling = NoScaling ->
  slowed c n t t' -> 0 < last (tj_ts t) 0 -> hd 0 (tj_ts t) < last (tj_ts t) 0 ->
  (n <= length fas)%nat -> Forall (fun f => is_trained f = false) fas -> (n <= length fas')%nat -> Forall (fun f => is_trained f = false) fas' ->
  exists m m', from_traj pf tf ty t (Some fas) kw = Ok m /\ from_traj pf tf ty t' (Some fas') kw = Ok m' /\ m_tau m' = c * m_tau m /\
    (forall fs fs', m_fas m = Some fs -> m_fas m' = Some fs' -> forall i f f', (i < n)%nat -> nth_error fs i = Some f -> nth_error fs' i = Some f' -> f_model f' = f_model f) /\
    forall ts, ts <> [] -> exists q q', movement pf m ts = Ok q /\ movement pf m' (map (Rmult c) ts) = Ok q' /\ tj_ts q = ts /\ slowed c n q q'.
Proof.
  intros Hc Hty Kw Ksc Sl Hl Hlt Hf Hu Hf' Hu'. pose proof Sl as (Dm & Dm' & Et & Hm).
  assert (Dn : tj_dim t = n) by apply Dm. assert (Dn' : tj_dim t' = n) by apply Dm'.
  assert (Hne : tj_ts t <> []) by (intros Z; rewrite Z in Hl; cbn in Hl; lra).
  assert (Hpos : (0 < length (tj_ts t))%nat) by (destruct (tj_ts t); [congruence|cbn; lia]).
  assert (El : last (tj_ts t') 0 = c * last (tj_ts t) 0) by (rewrite Et; apply last_map_mult).
  destruct (trained_facts kinds ns h lam Hk Hn Hh Hlam ty t fas kw Hty Kw Ksc) as (m & Em & W & D & F); trivial; try (rewrite Dn; trivial).
  destruct (trained_facts kinds ns h lam Hk Hn Hh Hlam ty t' fas' kw Hty Kw Ksc) as (m' & Em' & W' & D' & F'); trivial; try (rewrite Dn'; trivial).
  { rewrite El. now apply Rmult_lt_0_compat. }
  { rewrite El, Et. replace (hd 0 (map (Rmult c) (tj_ts t))) with (c * hd 0 (tj_ts t)) by (destruct (tj_ts t); cbn; [ring|reflexivity]). now apply Rmult_lt_compat_l. }
  exists m, m'. split; [exact Em|]. split; [exact Em'|]. cbv zeta in F, F'. rewrite El in F'. rewrite Dn in *. rewrite Dn' in *.
  destruct F as (Ly & LN & F1 & F2 & (s & Es & F3) & F4 & F5 & F6 & F7 & (d & F8 & F9 & F10) & F11 & F12 & F13 & phs & tg & fs & F14 & F15 & F16).
  destruct F' as (Ly' & LN' & G1 & G2 & (s' & Es' & G3) & G4 & G5 & G6 & G7 & (d' & G8 & G9 & G10) & G11 & G12 & G13 & phs' & tg' & fs' & G14 & G15 & G16).
  assert (d' = d) by congruence. subst d'. set (tau := last (tj_ts t) 0) in *.
  assert (Lr : length (mrows (tj_ys t)) = length (tj_ts t)) by apply Dm. assert (Lr' : length (mrows (tj_ys t')) = length (tj_ts t)) by (transitivity (length (tj_ts t')); [apply Dm'|rewrite Et; apply map_length]).
  assert (Row : forall k, (k < length (tj_ts t))%nat -> length (nth k (mrows (tj_ys t)) []) = n /\ length (nth k (mrows (tj_ys t')) []) = n).
  { intros k Hkk. destruct Dm as (_ & (_ & A & _) & _). destruct Dm' as (_ & (_ & B & _) & _). rewrite Forall_forall in A, B. split; [apply A|apply B]; apply nth_In; lia. }
  assert (Re : forall k, (k < length (tj_ts t))%nat -> nth k (mrows (tj_ys t')) [] = nth k (mrows (tj_ys t)) []).
  { intros k Hkk. destruct (Row k Hkk) as [L1 L2]. apply (nth_ext _ _ 0 0); [congruence|]. intros i Hi. rewrite L2 in Hi. exact (proj1 (Hm k i Hkk Hi)). }
  assert (E0 : nth 0 (mrows (tj_ys t')) [] = nth 0 (mrows (tj_ys t)) []) by now apply Re.
  assert (EN : last (mrows (tj_ys t')) [] = last (mrows (tj_ys t)) []) by (rewrite !last_nth, Lr, Lr'; apply Re; lia).
  rewrite E0, EN in *. set (y0 := nth 0 (mrows (tj_ys t)) []) in *. set (yN := last (mrows (tj_ys t)) []) in *.
  assert (K : slower c m m').
  { constructor; try congruence.
    - rewrite F2, G2. apply slow_time; lra.
    - rewrite F3, G3. now apply slow_gating.
    - eexists _, _. split; [exact F12|]. split; [exact G12|]. apply slow_exp; [exact Hc|lra|congruence]. }
  rewrite <- D in Sl. destruct (slow_targets c pf m m' t t' phs tg phs' tg' Hc K W W' Sl Hne F14 G14) as [-> ->].
  split; [congruence|].
  assert (Mo : forall i f f', (i < n)%nat -> nth_error fs i = Some f -> nth_error fs' i = Some f' -> f_model f' = f_model f /\ is_trained f = true /\ is_trained f' = true).
  { intros i f f' Hi E1 E2. destruct (F16 i Hi) as (ps & sel & P1 & P2). destruct (G16 i Hi) as (ps' & sel' & P1' & P2'). rewrite P1 in P1'. apply (f_equal (fun r => match r with Ok q => q | Err _ => ps end)) in P1'. cbv beta iota in P1'.
    rewrite E1 in P2. rewrite E2 in P2'. injection P2 as ->. injection P2' as ->. cbn. now repeat split. }
  split.
  { intros fs0 fs0' E1 E2 i f f' Hi N1 N2. rewrite F15 in E1. injection E1 as <-. rewrite G15 in E2. injection E2 as <-. now destruct (Mo i f f' Hi N1 N2). }
  assert (Pr : forall ph i, (i < n)%nat -> pred_val pf m' ph i = pred_val pf m ph i).
  { intros ph i Hi. destruct (F16 i Hi) as (ps & sel & _ & P2). destruct (G16 i Hi) as (ps' & sel' & _ & P2'). destruct (Mo i _ _ Hi P2 P2') as (Q1 & Q2 & Q3).
    unfold pred_val, fas_of, pdmp_of. cbn [p_fas]. rewrite F15, G15, P2, P2', Q2, Q3. cbn [f_model] in *. now rewrite Q1. }
  intros ts Hts. assert (Hts' : map (Rmult c) ts <> []) by (intros Z; apply map_eq_nil in Z; contradiction).
  destruct (movement_ok pf m ts W Hts) as (q & r & Eq & _ & Sp & Dq & Tq & Hq). destruct (movement_ok pf m' _ W' Hts') as (q' & r' & Eq' & _ & Sp' & Dq' & Tq' & Hq').
  exists q, q'. split; [exact Eq|]. split; [exact Eq'|]. split; [exact Tq|]. rewrite D in *. rewrite D' in *. split; [exact Dq|]. split; [exact Dq'|]. split; [congruence|].
  rewrite Tq. intros k i Hkk Hi. rewrite map_length in Hq'. destruct (Hq k i Hkk Hi) as (-> & -> & ->). destruct (Hq' k i Hkk Hi) as (-> & -> & ->).
  pose proof (slow_rollouts c Hc pf m m' K W ts r r' Sp Sp') as SR. rewrite D in SR. destruct (SR Pr k i Hkk Hi) as (-> & -> & _ & ->). rewrite F1, G1.
  split; [reflexivity|]. split; field; lra.
Qed.
End Train.
