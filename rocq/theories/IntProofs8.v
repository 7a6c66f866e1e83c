(** Numerical integration of DMPs of every type, after every history and after training. *)
From Coq Require Import String.
From Verif Require Import Base BaseLemmas DynModel DynSpec DynProofs DynProofs2 DynProofs6 ParamModel TrajModel DmpModel DmpSpec DmpProofs DmpProofs2 DmpProofs3 DmpProofs5 DmpProofs6 DmpProofs9 DmpProofs14 DmpProofs16 FaModel CppModel CppSpec CppProofs6 CppProofs7 IntSpec IntModel IntProofs IntProofs2 IntProofs6 IntProofs7.
Open Scope R_scope.

Lemma integrable_tau s c : integrable s -> 0 < c -> integrable (sub_set_tau s (sub_tau s * c)).
Proof. destruct s as [e|g|h|t]; cbn; trivial. intros H Hc. now apply Rmult_lt_0_compat. Qed.
Lemma integrable_y s y s' : integrable s -> sub_set_y_init s y = Ok s' -> integrable s'.
Proof.
  unfold sub_set_y_init. intros H E. destruct (set_y_init _ _ _) as [x|] eqn:Ex; [|discriminate]. cbn [bind] in E.
  unfold set_y_init in Ex. destruct (Nat.eqb_spec (length y) (sub_dim s)) as [L|]; [|discriminate].
  unfold set_x_init in Ex. destruct (Nat.eqb_spec (length (pad (sub_dim s) y)) (sub_dim s)) as [L'|]; [|discriminate].
  assert (Lx : length x = sub_dim s) by congruence. clear Ex. destruct s as [e|g|h|t]; injection E as <-; cbn in *; trivial.
  intros i Hi. apply H. unfold sub_dim in Lx. cbn in Lx. lia.
Qed.
Lemma integrable_attr s y s' : integrable s -> sub_set_attr s y = Ok s' -> integrable s'.
Proof.
  intros H E. destruct s as [e|g|h|t]; cbn in E; try (injection E as <-; exact H). destruct (Nat.eqb _ _); [|discriminate]. injection E as <-. exact I.
Qed.
Lemma integrable_decouple s : integrable s -> integrable (sub_decouple s).
Proof. destruct s as [e|g|h|t]; cbn; trivial. intros H i Hi. rewrite par_val_decouple by trivial. now apply H. Qed.

Section S.
Variable pf : nat -> list (string * pval) -> R -> res R.
Variable tf : nat -> list R -> list R -> res (list (string * pval)).

(** goal systems: exponential ones follow the attractor *)
Definition igoal (m : dmp) : Prop :=
  match m_goal m with
  | None => m_req m = false
  | Some g => integrable g /\ match g with SubE e => m_req m = false /\ e_attr e = m_attr m | SubR _ => True | _ => False end
  end.
Definition iall (m : dmp) : Prop :=
  0 < m_tau m /\ integrable (m_phase m) /\ integrable (m_gating m) /\
  match m_damping m with Some s => integrable s | None => True end /\ igoal m.

Lemma igoal_parts m : igoal m -> synced m /\ plain_goal m /\ match m_goal m with Some g => integrable g | None => True end.
Proof.
  unfold igoal, synced, plain_goal. destruct (m_goal m) as [g|]; intros H; [|now repeat split]. destruct H as [H1 H2].
  split; [|split; [discriminate|exact H1]]. destruct g; trivial. apply H2.
Qed.
Lemma iall_tau m t m' : iall m -> 0 < t -> set_tau m t = Ok m' -> iall m'.
Proof.
  intros (T & P & Ga & D & Go) Ht E. unfold set_tau in E. destruct (Req_EM_T _ _); [discriminate|]. injection E as <-.
  assert (Hc : 0 < t / m_tau m) by now apply Rdiv_lt_0_compat.
  split; [exact Ht|]. split; [now apply integrable_tau|]. split; [now apply integrable_tau|]. split; [exact D|].
  unfold igoal in *. cbn [upd_tau m_goal m_req m_attr]. destruct (m_goal m) as [g|]; cbn [option_map]; [|exact Go]. destruct Go as [G1 G2].
  split; [now apply integrable_tau|]. destruct g; exact G2.
Qed.
Lemma iall_y0 m y m' : iall m -> set_y0 m y = Ok m' -> iall m'.
Proof.
  intros (T & P & Ga & D & Go) E. unfold set_y0 in E. destruct (Nat.eqb _ _); [|discriminate].
  destruct (d_set_y_init (m_spring m) y) as [sp|] eqn:Es; [|discriminate]. cbn [bind] in E.
  destruct (match m_goal m with Some g => _ | None => _ end) as [g'|] eqn:Eg; [|discriminate]. cbn [bind] in E. injection E as <-.
  split; [exact T|]. split; [exact P|]. split; [exact Ga|]. split; [exact D|].
  unfold igoal in *. cbn [upd_y0 m_goal m_req m_attr]. destruct (m_goal m) as [g|]; [|injection Eg as <-; exact Go].
  destruct (m_req m) eqn:Er; [injection Eg as <-; exact Go|].
  destruct (sub_set_y_init g y) as [g1|] eqn:E1; [|discriminate]. cbn [bind] in Eg. injection Eg as <-. destruct Go as [G1 G2].
  split; [now apply (integrable_y g y)|]. unfold sub_set_y_init in E1. destruct (set_y_init _ _ _); [|discriminate]. cbn [bind] in E1.
  destruct g; injection E1 as <-; exact G2.
Qed.
Lemma iall_attr m y g : iall m -> goal_attr m y = Ok g -> iall (upd_attr m y g).
Proof.
  intros (T & P & Ga & D & Go) E. split; [exact T|]. split; [exact P|]. split; [exact Ga|]. split; [exact D|]. unfold goal_attr in E.
  unfold igoal in *. cbn [upd_attr m_goal m_req m_attr]. destruct (m_goal m) as [g0|]; [|injection E as <-; exact Go]. destruct Go as [G1 G2].
  destruct (m_req m) eqn:Er.
  - injection E as <-. split; [exact G1|]. destruct g0; trivial. now destruct G2.
  - destruct (sub_set_attr g0 y) as [g1|] eqn:E1; [|discriminate]. cbn [bind] in E. injection E as <-.
    split; [now apply (integrable_attr g0 y)|]. destruct g0; cbn in E1; try (injection E1 as <-; exact G2). destruct (Nat.eqb _ _); [|discriminate]. injection E1 as <-. now split.
Qed.
Lemma iall_same m m' : m_tau m' = m_tau m -> m_phase m' = m_phase m -> m_gating m' = m_gating m -> m_goal m' = m_goal m -> m_req m' = m_req m ->
  m_attr m' = m_attr m -> m_damping m' = m_damping m -> iall m -> iall m'.
Proof. unfold iall, igoal. intros -> -> -> -> -> -> ->. trivial. Qed.
Lemma iall_decouple m : iall m -> iall (m_decouple m).
Proof.
  intros (T & P & Ga & D & Go). split; [exact T|]. split; [exact P|]. split; [exact Ga|]. split.
  - cbn [m_decouple upd_sub m_damping]. destruct (m_damping m); cbn [option_map]; [now apply integrable_decouple|exact I].
  - unfold igoal in *. cbn [m_decouple upd_sub m_goal m_req m_attr]. destruct (m_goal m) as [g|]; cbn [option_map]; [|exact Go].
    destruct Go as [G1 G2]. split; [now apply integrable_decouple|]. destruct g; exact G2.
Qed.
Lemma iall_touched m m' : touched m m' -> iall m -> iall m'.
Proof.
  intros (a & p & g & -> & Hp & Hg) (T & P & Ga & D & Go). split; [exact T|]. split; [exact P|]. split; [exact Ga|]. split; [exact D|].
  unfold igoal in *. cbn [upd_spring m_goal m_req m_attr]. destruct (m_goal m) as [g0|]; [|now rewrite Hg]. destruct Go as [G1 G2].
  destruct Hg as [->|(g' & -> & E)]; [now split|]. split; [now apply (integrable_attr g0 (m_attr m))|].
  destruct g0; cbn in E; try (injection E as <-; exact G2). destruct (Nat.eqb _ _); [|discriminate]. injection E as <-. now split.
Qed.
Lemma iall_train m t m' : iall m -> 0 < last (tj_ts t) 0 -> m_train pf tf m t = Ok m' -> iall m'.
Proof.
  intros I F E. unfold m_train in E. destruct (last_res (tj_ts t)) as [tau|] eqn:E0; [|discriminate]. cbn [bind] in E.
  assert (Ht : tau = last (tj_ts t) 0).
  { assert (Hne : tj_ts t <> []) by (intros H; rewrite H, last_res_nil in E0; discriminate). rewrite (last_res_ok _ 0 Hne) in E0. congruence. }
  rewrite <- Ht in F. destruct (set_tau m tau) as [m1|] eqn:E1; [|discriminate]. cbn [bind] in E.
  destruct (nth_res _ _) as [y0|]; [|discriminate]. cbn [bind] in E. destruct (set_y0 m1 y0) as [m2|] eqn:E2; [|discriminate]. cbn [bind] in E.
  destruct (last_res (mrows (tj_ys t))) as [yN|]; [|discriminate]. cbn [bind] in E. unfold set_yattr in E. destruct (Nat.eqb _ _); [|discriminate].
  destruct (goal_attr m2 yN) as [g|] eqn:E3; [|discriminate]. cbn [bind] in E. destruct (get_range_per_dim t) as [am|]; [|discriminate]. cbn [bind] in E.
  assert (I3 : iall (upd_attr m2 yN g)) by (apply iall_attr; [|exact E3]; apply (iall_y0 m1 y0); [|exact E2]; now apply (iall_tau m tau)).
  set (m3 := upd_attr m2 yN g) in *. clearbody m3.
  destruct (match m_fas _ with Some fs => _ | None => _ end) as [m4|] eqn:E4; [|discriminate]. cbn [bind] in E. injection E as <-.
  assert (I4 : iall m4).
  { destruct (m_fas (upd_amps m3 (Some am))) as [fs|].
    - destruct (targets _ _ _) as [pt|]; [|discriminate]. cbn [bind] in E4. destruct (mapM _ _) as [tr|]; [|discriminate]. cbn [bind] in E4.
      injection E4 as <-. now apply (iall_same m3).
    - injection E4 as <-. now apply (iall_same m3). }
  now apply (iall_same m4).
Qed.
Lemma iall_change m c m' : iall m -> forward c -> apply1 pf tf m c = Ok m' -> iall m'.
Proof.
  intros I F E. destruct c as [t|y|y| |n|v|t|c]; cbn [apply1 forward] in *.
  - now apply (iall_tau m t).
  - now apply (iall_y0 m y).
  - unfold set_yattr in E. destruct (Nat.eqb _ _); [|discriminate]. destruct (goal_attr m y) as [g|] eqn:Eg; [|discriminate]. cbn [bind] in E. injection E as <-.
    now apply iall_attr.
  - injection E as <-. now apply iall_decouple.
  - injection E as <-. now apply (iall_same m).
  - destruct (m_set_params m v) as [m1 [u|]] eqn:Ev; [|discriminate]. cbn [bind] in E. injection E as <-.
    unfold m_set_params in Ev. destruct (dmp_set _ _) as [p [u0|e0]]; [|discriminate]. destruct (mem _ _).
    + destruct (goal_attr _ _) as [g|] eqn:Eg; [|discriminate]. injection Ev as <- _. apply iall_attr; [now apply (iall_same m)|exact Eg].
    + injection Ev as <- _. now apply (iall_same m).
  - now apply (iall_train m t).
  - assert (Ht : touched m m').
    { destruct c as [x| |ts s]; cbn [reply1] in E.
      - destruct (m_diffeq pf m x) as [[m1 xd]|] eqn:Ed; [|discriminate]. cbn in E. injection E as <-. now apply diffeq_touch in Ed.
      - destruct (m_start pf m None) as [[[m1 x] xd]|] eqn:Ed; [|discriminate]. cbn in E. injection E as <-. now apply start_touch in Ed.
      - destruct (ana pf m ts s) as [r|]; [|discriminate]. cbn in E. injection E as <-. apply touched_refl. }
    now apply (iall_touched m).
Qed.
Lemma iall_history cs : forall m m', iall m -> Forall forward cs -> apply_all pf tf m cs = Ok m' -> iall m'.
Proof.
  induction cs as [|c cs IH]; intros m m' I F E; cbn [apply_all] in *; [now injection E as <-|].
  destruct (apply1 pf tf m c) as [m1|] eqn:E1; [|discriminate]. cbn [bind] in E. inversion F; subst.
  apply (IH m1); trivial. now apply (iall_change m c).
Qed.
End S.

Lemma iall_new ty tau y0 attr fas kw m : 0 < tau -> full_kw (length y0) kw -> new_dmp ty tau y0 attr fas kw = Ok m -> iall m.
Proof.
  intros Ht (K1 & K2 & K3 & K4 & K5 & K6) E. unfold new_dmp in E. rewrite K1, K2, K3, K4, K5 in E. cbn [opt] in E.
  destruct (default_subs _ _ _ _ _) as [[[[go ga] ph] da]|] eqn:Ed; [|discriminate]. cbn [bind] in E. injection E as <-.
  unfold iall, igoal. cbn [m_tau m_phase m_gating m_goal m_req m_attr m_damping]. split; [exact Ht|].
  assert (N1 : forall n i, (i < n)%nat -> exists k, (1 <= k)%nat /\ 1 = INR k) by (intros; exists 1%nat; split; [lia|reflexivity]).
  assert (N10 : forall n i, (i < n)%nat -> exists k, (1 <= k)%nat /\ 10 = INR k) by (intros; exists 10%nat; split; [lia|cbn; lra]).
  destruct ty as [| | |ns dp]; cbn [default_subs requires_scaling] in *.
  - injection Ed as <- <- <- <-. cbn. now repeat split.
  - destruct (for_gating tau 0.1 1) as [s|]; [|discriminate]. cbn [bind] in Ed. injection Ed as <- <- <- <-. cbn. now repeat split.
  - destruct (for_gating tau 0.1 1) as [s|]; [|discriminate]. cbn [bind] in Ed. injection Ed as <- <- <- <-. cbn. now repeat split.
  - destruct (if dp then _ else _) as [da'|] eqn:Eda; [|discriminate]. cbn [bind] in Ed. injection Ed as <- <- <- <-.
    split; [exact Ht|]. split; [exact (N10 1%nat)|]. split.
    + destruct dp; [|injection Eda as <-; exact I]. destruct (full _ _); [|discriminate]. cbn [bind] in Eda. injection Eda as <-. exact I.
    + destruct ns; (split; [|exact I]); intros i Hi; exact (N1 _ i Hi).
Qed.

Lemma history_error pf tf ty tau y0 attr fas kw m cs m' T : predicts pf tf ->
  0 < tau -> full_kw (length y0) kw -> new_dmp ty tau y0 attr fas kw = Ok m -> sound pf m -> allowed pf tf m cs -> Forall forward cs ->
  apply_all pf tf m cs = Ok m' -> ready m' -> (forall i, (i < m_dim m')%nat -> lipschitz (fun ph => pred_val pf m' ph i)) ->
  exists C h0, 0 <= C /\ 0 < h0 /\ forall me h ts, sampling T h ts -> h <= h0 ->
    exists m2 xs xds r, m_integrate pf me m' ts = Ok (m2, (xs, xds)) /\ ana pf m' ts false = Ok r /\ within (C * h) (dim_x m') xs (a_xs r).
Proof.
  intros Pr Ht K En S A F E Rd Pl. pose proof (iall_history pf tf cs m m' (iall_new _ _ _ _ _ _ _ Ht K En) F E) as (_ & I1 & I2 & I3 & I4).
  destruct (history_sound pf tf Pr cs m m' S A E) as (S' & _). destruct (igoal_parts m' I4) as (Sy & Pg & I5).
  exact (dmp_error pf m' (sound_wf pf m' S' Rd) Sy Pg I1 I2 I5 I3 Pl T).
Qed.

Section Train.
Variable kinds : nat -> fa_kind.
Variable ns : nat -> nat.
Variables h lam : nat -> R.
Hypothesis Hn : forall i, (0 < ns i)%nat.
Hypothesis Hh : forall i, 0 < h i < 1.
Hypothesis Hlam : forall i, 0 <= lam i.
Notation pf := (py_predict exp kinds).
Notation tf := (trainer kinds ns h lam).
Notation sf := (safe kinds ns h lam).

Lemma new_moving ty tau y0 attr fas kw m : full_kw (length y0) kw -> new_dmp ty tau y0 attr fas kw = Ok m -> moving m.
Proof.
  intros (K1 & K2 & K3 & K4 & K5 & K6) E. unfold new_dmp in E. rewrite K1, K2, K3, K4, K5 in E. cbn [opt] in E.
  destruct (default_subs _ _ _ _ _) as [[[[go ga] ph] da]|] eqn:Ed; [|discriminate]. cbn [bind] in E. injection E as <-.
  unfold moving. cbn [m_tau m_phase]. destruct ty as [| | |b dp]; cbn [default_subs] in Ed.
  - injection Ed as <- <- <- <-. now right.
  - destruct (for_gating tau 0.1 1) as [s|]; [|discriminate]. cbn [bind] in Ed. injection Ed as <- <- <- <-. left. now eexists _, _.
  - destruct (for_gating tau 0.1 1) as [s|]; [|discriminate]. cbn [bind] in Ed. injection Ed as <- <- <- <-. left. now eexists _, _.
  - destruct (if dp then _ else _) as [da'|]; [|discriminate]. cbn [bind] in Ed. injection Ed as <- <- <- <-. left. now eexists _, _.
Qed.

Lemma trained_error ty t fas kw m T : full_kw (tj_dim t) kw ->
  demo (tj_dim t) t -> 0 < last (tj_ts t) 0 -> hd 0 (tj_ts t) < last (tj_ts t) 0 ->
  distinct_for ty (nth 0 (mrows (tj_ys t)) []) (last (mrows (tj_ys t)) []) ->
  (tj_dim t <= length fas)%nat -> Forall (fun f => is_trained f = false) fas ->
  from_traj pf tf ty t (Some fas) kw = Ok m ->
  wf pf m /\ (forall i, (i < tj_dim t)%nat -> lipschitz (fun ph => pred_val pf m ph i)) /\ (forall i, (i < tj_dim t)%nat -> exists f, nth_error (fas_of (pdmp_of m)) i = Some f /\ is_trained f = true) /\
  exists C h0, 0 <= C /\ 0 < h0 /\ forall me h ts, sampling T h ts -> h <= h0 ->
    exists m' xs xds r, m_integrate pf me m ts = Ok (m', (xs, xds)) /\ ana pf m ts false = Ok r /\ within (C * h) (dim_x m) xs (a_xs r).
Proof.
  intros K Dm Hl Hlt Di Hf Hu E.
  assert (Hne : tj_ts t <> []) by (intros Z; rewrite Z in Hl; cbn in Hl; lra).
  assert (Hpos : (0 < length (tj_ts t))%nat) by (destruct (tj_ts t); [congruence|cbn; lia]).
  unfold from_traj in E. rewrite (last_res_ok _ 0 Hne) in E. cbn [bind] in E.
  destruct (demo_row _ t 0 Dm Hpos) as [R0 L0]. rewrite R0 in E. cbn [bind] in E.
  destruct (demo_row _ t (length (tj_ts t) - 1) Dm ltac:(lia)) as [RN LN].
  assert (EN : last_res (mrows (tj_ys t)) = Ok (last (mrows (tj_ys t)) []) /\ length (last (mrows (tj_ys t)) []) = tj_dim t).
  { pose proof Dm as (_ & (L & _ & _) & _). rewrite last_nth, L. split; [|exact LN]. unfold last_res. rewrite L. exact RN. }
  destruct EN as [EN LN']. rewrite EN in E. cbn [bind] in E.
  set (y0 := nth 0 (mrows (tj_ys t)) []) in *. set (yN := last (mrows (tj_ys t)) []) in *. set (tau := last (tj_ts t) 0) in *.
  rewrite <- L0 in K.
  destruct (new_dmp_ok pf ty tau y0 yN (Some fas) kw Hl ltac:(congruence) K Di) as (m0 & E0 & S0 & Sy0 & Pl0 & D0 & T0 & A0 & _ & F0 & R0' & Sc0 & _ & _ & M0 & Sp0 & Da0 & G0).
  { split; [right; now rewrite L0|]. intros i f Hi Hit. exfalso. rewrite Forall_forall in Hu. apply nth_error_In in Hi. apply Hu in Hi. congruence. }
  rewrite E0 in E. cbn [bind] in E. rewrite L0 in D0.
  pose proof (iall_new ty tau y0 yN (Some fas) kw m0 Hl K E0) as I0. pose proof (new_moving ty tau y0 yN (Some fas) kw m0 K E0) as Mo.
  assert (Dm' : demo (m_dim m0) t) by now rewrite D0.
  assert (Ga : goal_accepts m0 y0) by (apply G0; [reflexivity|exact Di]).
  pose proof (iall_train pf tf m0 t m I0 Hl E) as (_ & I1 & I2 & I3 & I4). destruct (igoal_parts m I4) as (Sy & Pg & I5).
  apply train_moving in E; trivial.
  destruct (train_ok pf sf m0 t m (safe_total kinds ns h lam Hn Hh Hlam) S0 Dm' ltac:(fold tau; lra) Ga E) as (On & W & D1 & _ & _ & _ & _ & _ & _ & Fa).
  rewrite F0 in Fa. destruct Fa as (phs & tg & fs' & _ & Ef' & Lf' & Hfs).
  assert (Tr : forall i, (i < tj_dim t)%nat -> exists f ps, lipschitz f /\ (forall ph, pf i ps ph = Ok (f ph)) /\ exists sel, nth_error fs' i = Some (Fa ps (Some 1%nat) sel)).
  { intros i Hi. destruct (nth_error fas i) as [f0|] eqn:Ef0.
    2:{ apply nth_error_None in Ef0. lia. }
    specialize (Hfs i f0 Ef0). rewrite D0 in Hfs. destruct (Nat.ltb_spec i (tj_dim t)) as [_|?]; [|lia].
    destruct Hfs as (ps & Eps & Enf). destruct (safe_smooth kinds ns h lam Hn Hh Hlam i _ _ _ Eps) as (f & Lf & Hp). exists f, ps. split; [exact Lf|]. split; [exact Hp|]. eauto. }
  assert (Lp : forall i, (i < tj_dim t)%nat -> lipschitz (fun ph => pred_val pf m ph i)).
  { intros i Hi. destruct (Tr i Hi) as (f & ps & Lf & Hp & sel & En). apply (lip_ext f); [|exact Lf]. intros ph.
    unfold pred_val, fas_of, pdmp_of. cbn [p_fas]. rewrite Ef', En. cbn. now rewrite Hp. }
  split; [exact W|]. split; [exact Lp|]. split.
  { intros i Hi. destruct (Tr i Hi) as (f & ps & _ & _ & sel & En). eexists. unfold fas_of, pdmp_of. cbn [p_fas]. rewrite Ef'. split; [exact En|reflexivity]. }
  apply (dmp_error pf m W Sy Pg I1 I2 I5 I3). rewrite D1, D0. exact Lp.
Qed.
End Train.
