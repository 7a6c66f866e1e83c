(** Proofs: rollouts in between, and optimization of DMPs on the via-point task. *)
From Coq Require Import String.
From Verif Require Import Base BaseLemmas SessionModel SessionSpec UpdatersModel UpdatersSpec UpdatersProofs LoopModel LoopSpec LoopProofs LoopProofs4
  EquivSpec ParamModel ParamSpec TrajModel TrajSpec DmpModel DmpSpec DmpProofs7 DmpProofs17 TaskModel TaskSpec TaskProofs TaskProofs2 CppModel CppSpec
  OptSpec OptProofs2 OptProofs3 OptProofs4 ExploreSpec ViaSpec ViaProofs ViaProofs2 ViaProofs3 ViaProofs4.
Open Scope R_scope.

Section E.
Variable ex : R -> R.
Variable kinds : nat -> fa_kind.
Notation pf := (py_predict ex kinds).

Lemma ts_nonempty T n ts : linspace0 T n = Ok ts -> (1 <= n)%Z -> ts <> [].
Proof.
  intros E Hn ->. unfold linspace0 in E. destruct (n <? 0)%Z; [discriminate|]. assert (P : (0 < Z.to_nat n)%nat) by lia.
  destruct (Z.to_nat n) as [|[|k]]; [lia|discriminate|discriminate].
Qed.
Lemma nth_error_rows {A} (F : nat -> A) n i a : nth_error (map F (seq 0 n)) i = Some a -> (i < n)%nat /\ a = F i.
Proof.
  intros H. assert (L : (i < n)%nat). { assert (i < length (map F (seq 0 n)))%nat by (apply nth_error_Some; congruence). now rewrite map_length, seq_length in *. }
  split; [exact L|]. rewrite (map_nth_error F i (seq 0 n) (d := i)) in H; [congruence|].
  rewrite (nth_error_nth' _ 0%nat) by (now rewrite seq_length). now rewrite seq_nth.
Qed.
Lemma map_seq_between t F G H n : (forall i, (i < n)%nat -> H i = t * F i + (1 - t) * G i) ->
  map H (seq 0 n) = between t (map F (seq 0 n)) (map G (seq 0 n)).
Proof.
  intros E. apply (nth_ext _ _ 0 0).
  - rewrite (between_length _ _ _ n); now rewrite map_length, seq_length.
  - intros j Hj. rewrite map_length, seq_length in Hj. rewrite (between_nth _ _ _ n) by (trivial; now rewrite map_length, seq_length).
    rewrite !(nth_map_lt _ _ _ 0%nat) by (rewrite seq_length; lia). rewrite seq_nth by lia. now apply E.
Qed.
Theorem rollout_between s x y t : wf pf (o_dmp s) -> selectable_dmp (pdmp_of (o_dmp s)) -> linear_params kinds (o_dmp s) -> goal_apart (o_dmp s) ->
  (1 <= o_n s)%Z -> dmp_size (pdmp_of (o_dmp s)) = Ok (length x) -> dmp_size (pdmp_of (o_dmp s)) = Ok (length y) ->
  exists rx ry rz, snd (rollout pf s x) = Ok rx /\ snd (rollout pf s y) = Ok ry /\ snd (rollout pf s (between t x y)) = Ok rz /\
    length rx = Z.to_nat (o_n s) /\ length ry = Z.to_nat (o_n s) /\ length rz = Z.to_nat (o_n s) /\
    forall i tx px vx ax ty py vy ay tz pz vz az, nth_error rx i = Some (tx, (px, vx, ax)) -> nth_error ry i = Some (ty, (py, vy, ay)) -> nth_error rz i = Some (tz, (pz, vz, az)) ->
      tx = tz /\ ty = tz /\ pz = between t px py /\ vz = between t vx vy /\ az = between t ax ay.
Proof.
  intros W Hs Hl Hga Hn Hx Hy. set (m := o_dmp s) in *.
  destruct (three ex kinds m x y t W Hs Hl Hx Hy) as (fx & fy & fz & rx & ry & (Ex & Mx & Fx) & (Ey & My & Fy) & (Ez & Mz & Fz) & FM & Lr & Lg & Wx & Wy & Wz). cbv zeta in *.
  destruct (rollout_spec_of pf s x _ Wx Mx Hn) as (ts & qx & Ets & Hne & Qx & Rx). destruct (rollout_spec_of pf s y _ Wy My Hn) as (ts1 & qy & Et1 & _ & Qy & Ry).
  destruct (rollout_spec_of pf s (between t x y) _ Wz Mz Hn) as (ts2 & qz & Et2 & _ & Qz & Rz).
  rewrite Ets in Et1, Et2. injection Et1 as <-. injection Et2 as <-.
  destruct (ana_total pf _ ts false Wx Hne) as (qx' & Qx' & Sx). rewrite Qx in Qx'. injection Qx' as <-.
  destruct (ana_total pf _ ts false Wy Hne) as (qy' & Qy' & Sy). rewrite Qy in Qy'. injection Qy' as <-.
  destruct (ana_total pf _ ts false Wz Hne) as (qz' & Qz' & Sz). rewrite Qz in Qz'. injection Qz' as <-.
  pose proof (rollout_mix ex kinds m x y t W Hs Hl Hga Hx Hy fx fy fz rx ry ts qx qy qz Ex Ey FM Fx Fy Fz Lg Sx Sy Sz) as R.
  destruct (linspace_spec (o_time s) (o_n s) Hn) as (ts' & Ets' & Lts & _). rewrite Ets in Ets'. injection Ets' as <-.
  eexists _, _, _. split; [exact Rx|]. split; [exact Ry|]. split; [exact Rz|]. rewrite !map_length, !seq_length. split; [lia|]. split; [lia|]. split; [lia|].
  intros i tx px vx ax ty py vy ay tz pz vz az H1 H2 H3.
  apply nth_error_rows in H1, H2, H3. destruct H1 as [Hi H1], H2 as [_ H2], H3 as [_ H3]. injection H1 as -> -> -> ->. injection H2 as -> -> -> ->. injection H3 as -> -> -> ->.
  split; [reflexivity|]. split; [reflexivity|]. cbn [made m_dim m_tau]. fold m.
  destruct Sx as (_ & _ & _ & _ & _ & _ & _ & _ & _ & _ & _ & Vx & _). destruct Sy as (_ & _ & _ & _ & _ & _ & _ & _ & _ & _ & _ & Vy & _). destruct Sz as (_ & _ & _ & _ & _ & _ & _ & _ & _ & _ & _ & Vz & _).
  cbn [made m_dim m_tau] in Vx, Vy, Vz.
  split; [|split]; apply map_seq_between; intros j Hj; destruct (R i Hi j Hj) as (Y & Z & A).
  - exact Y.
  - destruct (Vx i j Hi Hj) as [-> _], (Vy i j Hi Hj) as [-> _], (Vz i j Hi Hj) as [-> _]. rewrite Z. unfold Rdiv. ring.
  - rewrite A. unfold Rdiv. ring.
Qed.

Theorem total_convex (frame : bool) s k ts N : wf pf (o_dmp s) -> selectable_dmp (pdmp_of (o_dmp s)) -> linear_params kinds (o_dmp s) -> goal_apart (o_dmp s) ->
  (1 <= o_n s)%Z -> m_dim (o_dmp s) = length (k_via k) -> (0 < m_dim (o_dmp s))%nat ->
  linspace0 (o_time s) (o_n s) = Ok ts -> goal_ready k ts -> timed k -> dmp_size (pdmp_of (o_dmp s)) = Ok N -> convex N (total_cost pf s frame k).
Proof.
  intros W Hs Hl Hga Hn Hd Hp Ets Hg Htm HN x y t Lx Ly Ht.
  destruct (cost_convex ex kinds frame s k ts W Hs Hl Hga Hn Hd Hp Ets Hg Htm x y t) as (cx & cy & cz & Ex & Ey & Ez & L1 & L2 & L3 & C); [congruence|congruence|exact Ht|].
  unfold total_cost. rewrite Ex, Ey, Ez. specialize (C 0%nat ltac:(lia)). destruct cx, cy, cz; try discriminate. exact C.
Qed.

(** ** the world of the optimization *)
Section World.
Variables (G : Type) (rng : G -> list R -> mat -> Z -> G * res mat) (argsort : list R -> list nat) (u : updater) (frame : bool) (k : task) (s0 : solver).
Hypothesis W : wf pf (o_dmp s0).
Hypothesis Hs : selectable_dmp (pdmp_of (o_dmp s0)).
Notation orc := (via_oracles rng argsort u pf frame k).
Definition reached (o : G * solver) : Prop := exists hs, snd o = DmpModel.rollouts pf s0 hs.
Lemma rollouts_snoc hs : forall s x, DmpModel.rollouts pf s (hs ++ [x])%list = fst (rollout pf (DmpModel.rollouts pf s hs) x).
Proof. induction hs as [|h hs IH]; intros s x; [reflexivity|]. cbn. apply IH. Qed.
Lemma reached_roll o x : reached o -> reached (fst (o_roll _ _ orc o x)).
Proof.
  intros (hs & E). exists (hs ++ [x])%list. rewrite rollouts_snoc, <- E. cbn [via_oracles bbo_oracles o_roll]. destruct (rollout pf (snd o) x). reflexivity.
Qed.
Lemma reached_gen o d n : reached o -> reached (fst (o_gen _ _ orc o d n)).
Proof. intros (hs & E). exists hs. rewrite <- E. cbn [via_oracles bbo_oracles o_gen]. destruct (rng (fst o) (d_mean d) (d_covar d) n). reflexivity. Qed.
Lemma via_sized : sized rng -> sized (fun (s : G * solver) mean C n => let '(g, r) := rng (fst s) mean C n in ((g, snd s), r)).
Proof. intros H s mean C n s' m E. destruct (rng (fst s) mean C n) as [g r] eqn:Er. injection E as _ ->. exact (H _ _ _ _ _ _ Er). Qed.
(** a rollout and its evaluation are the cost of the sample *)
Lemma evaluated o x o' v o1 o1' c : reached o -> o_roll _ _ orc o x = (o', Ok v) -> o_evalr _ _ orc o1 v x = (o1', Ok c) ->
  exists cs, snd (cost_of_sample pf s0 frame k x) = Ok cs /\ c = CVec cs.
Proof.
  intros (hs & E) E1 E2. rewrite <- (sample_history pf frame s0 k hs x W Hs), <- E. unfold cost_of_sample.
  cbn [via_oracles bbo_oracles o_roll o_evalr] in E1, E2. destruct (rollout pf (snd o) x) as [s' r]. cbn [snd].
  injection E1 as _ E1. injection E2 as _ E2. destruct r as [r|]; [|discriminate]. cbn [bind] in *. destruct (as_traj (m_dim (o_dmp s')) r) as [tr|]; [|discriminate]. cbn [bind] in *.
  rewrite E1. cbn [bind]. destruct (evaluate_rollout k v x) as [cs|]; [|discriminate]. exists cs. split; [reflexivity|]. cbn [bind] in E2. congruence.
Qed.
Lemma evaluated_ok o x cs : reached o -> snd (cost_of_sample pf s0 frame k x) = Ok cs ->
  exists o' v, o_roll _ _ orc o x = (o', Ok v) /\ forall o1, o_evalr _ _ orc o1 v x = (o1, Ok (CVec cs)).
Proof.
  intros (hs & E) E1. rewrite <- (sample_history pf frame s0 k hs x W Hs), <- E in E1. unfold cost_of_sample in E1.
  cbn [via_oracles bbo_oracles o_roll o_evalr]. destruct (rollout pf (snd o) x) as [s' r]. cbn [snd] in E1.
  destruct r as [r|]; [|discriminate]. cbn [bind] in *. destruct (as_traj (m_dim (o_dmp s')) r) as [tr|]; [|discriminate]. cbn [bind] in *.
  destruct (as_cost_vars frame tr) as [v|]; [|discriminate]. cbn [bind] in E1. eexists _, v. split; [reflexivity|]. intros o1. rewrite E1. reflexivity.
Qed.
End World.

Theorem via_run (frame : bool) argsort P G category load rng u s k ts0 N n w0 r tk solver up d0 j (st0 st1 : st cost_vars P (G * DmpModel.solver)) d' :
  argsort_ok argsort -> sized rng -> prefers_low (u_method u) (u_elit u) ->
  wf pf (o_dmp s) -> selectable_dmp (pdmp_of (o_dmp s)) -> linear_params kinds (o_dmp s) -> goal_apart (o_dmp s) ->
  (1 <= o_n s)%Z -> m_dim (o_dmp s) = length (k_via k) -> (0 < m_dim (o_dmp s))%nat ->
  linspace0 (o_time s) (o_n s) = Ok ts0 -> goal_ready k ts0 -> timed k -> dmp_size (pdmp_of (o_dmp s)) = Ok N -> length (d_mean d0) = N ->
  snd (st_out st0) = s -> st_trace st0 = [] ->
  run_optimization_task cost_vars P (G * DmpModel.solver) category (via_oracles rng argsort u pf frame k) w0 r tk solver up d0 j n st0 = (st1, Ok d') ->
  exists ts, length ts = j /\ chained t_before t_after d0 ts d' /\
    (forall i t, nth_error ts i = Some t -> task_stored load (st_db st1) i t) /\
    (forall t, In t ts -> has_total (u_mean_cost (t_upd t)) (total_cost pf s frame k (d_mean (t_before t))) /\ improves (total_cost pf s frame k) (t_upd t)).
Proof.
  intros Hsort Hsz Pl W Hs Hl Hga Hn Hd Hp Ets Hg Htm HN LN Eo T0 E.
  refine (run_task_improves_from cost_vars P (G * DmpModel.solver) category load (via_oracles rng argsort u pf frame k) (reached G s) _ _ _ _ argsort Hsort u (total_cost pf s frame k) N n _ _ Pl _ w0 r tk solver up d0 j st0 st1 d' _ _ T0 LN E).
  - intros. now apply reached_gen.
  - intros o d m cs H. exact H.
  - intros. now apply reached_roll.
  - intros o v x H. exact H.
  - intros o d m cs o' q Q. cbn [via_oracles bbo_oracles o_upd] in Q. now injection Q as _ Q.
  - apply generated_sized. now apply via_sized.
  - exact (total_convex frame s k ts0 N W Hs Hl Hga Hn Hd Hp Ets Hg Htm HN).
  - intros o x o' v o1 o1' c I Lx E1 E2. destruct (evaluated G rng argsort u frame k s W Hs o x o' v o1 o1' c I E1 E2) as (cs & Ec & ->).
    destruct (sample_ok ex kinds frame s k x ts0 W Hs Hl ltac:(congruence) Hn Hd Hp Ets Hg) as (cs' & Ec' & L5). rewrite Ec in Ec'. injection Ec' as <-.
    unfold total_cost. rewrite Ec. destruct cs as [|c0 cs]; [discriminate|]. right. now exists cs.
  - exists []. exact Eo.
Qed.
Theorem via_succeeds (frame : bool) argsort P G category rng u s k ts0 N n w0 r tk solver up d0 j (st0 : st cost_vars P (G * DmpModel.solver)) :
  argsort_ok argsort -> sized rng -> (forall s mean C, exists s' m, rng s mean C n = (s', Ok m) /\ nrows m = Z.to_nat n) -> (1 <= n)%Z ->
  (forall a, u <> UAdapt a) -> admissible (u_method u) (u_elit u) (Z.to_nat n) ->
  wf pf (o_dmp s) -> selectable_dmp (pdmp_of (o_dmp s)) -> linear_params kinds (o_dmp s) ->
  (1 <= o_n s)%Z -> m_dim (o_dmp s) = length (k_via k) -> (0 < m_dim (o_dmp s))%nat ->
  linspace0 (o_time s) (o_n s) = Ok ts0 -> goal_ready k ts0 -> dmp_size (pdmp_of (o_dmp s)) = Ok N -> length (d_mean d0) = N -> usable_bounds (d_bounds d0) N ->
  snd (st_out st0) = s ->
  exists st1 d', run_optimization_task cost_vars P (G * DmpModel.solver) category (via_oracles rng argsort u pf frame k) w0 r tk solver up d0 j n st0 = (st1, Ok d').
Proof.
  intros Hsort Hsz Hrng Hn0 Hu Had W Hs Hl Hn Hd Hp Ets Hg HN LN B Eo.
  unfold via_oracles. apply run_task_ok with (N := N) (Inv := reached G s) (B := d_bounds d0); trivial.
  - now apply via_sized.
  - intros o mean C (hs & I). destruct (Hrng (fst o) mean C) as (g & m & Er & Rm). exists (g, snd o), m. rewrite Er. split; [reflexivity|]. split; [exact Rm|]. now exists hs.
  - intros o x I Lx. destruct (sample_ok ex kinds frame s k x ts0 W Hs Hl ltac:(congruence) Hn Hd Hp Ets Hg) as (cs & Ec & L5).
    destruct (evaluated_ok G rng argsort u frame k s W Hs o x cs I Ec) as (o' & v & Er & Ev). exists o', v. split; [exact Er|]. split.
    + pose proof (reached_roll G rng argsort u frame k s o x I) as I'. rewrite Er in I'. exact I'.
    + intros o1 I1. exists o1, (CVec cs). split; [exact (Ev o1)|]. split; [|exact I1]. destruct cs; discriminate.
  - exists []. exact Eo.
Qed.
End E.

(** ** training does not change the scaling *)
Lemma from_traj_scaling pf tf ty t fas kw m : from_traj pf tf ty t (Some fas) kw = Ok m -> m_scaling m = opt (k_scaling kw) NoScaling.
Proof.
  intros E. unfold from_traj in E.
  destruct (last_res (tj_ts t)) as [tau0|] eqn:E00; [|discriminate]. cbn [bind] in E.
  destruct (nth_res (mrows (tj_ys t)) 0) as [y00|] eqn:E01; [|discriminate]. cbn [bind] in E.
  destruct (last_res (mrows (tj_ys t))) as [yN0|] eqn:E02; [|discriminate]. cbn [bind] in E.
  destruct (new_dmp _ _ _ _ _ _) as [m0|] eqn:E0; [|discriminate]. cbn [bind] in E.
  assert (S0 : m_scaling m0 = opt (k_scaling kw) NoScaling).
  { clear E. unfold new_dmp in E0. cbv zeta in E0. match type of E0 with (let* g := ?b in _) = _ => destruct b as [[[[? ?] ?] ?]|] end; [|discriminate]. cbn [bind] in E0.
    injection E0 as <-. reflexivity. }
  unfold m_train in E. rewrite E00 in E. cbn [bind] in E.
  destruct (set_tau m0 tau0) as [m1|] eqn:E1; [|discriminate]. cbn [bind] in E. rewrite E01 in E. cbn [bind] in E.
  assert (S1 : m_scaling m1 = m_scaling m0). { unfold set_tau in E1. destruct (Req_EM_T (m_tau m0) 0); [discriminate|]. injection E1 as <-. reflexivity. }
  destruct (set_y0 m1 y00) as [m2|] eqn:E2; [|discriminate]. cbn [bind] in E. rewrite E02 in E. cbn [bind] in E.
  assert (S2 : m_scaling m2 = m_scaling m1).
  { unfold set_y0 in E2. destruct (Nat.eqb _ _); [|discriminate]. destruct (d_set_y_init _ _) as [sp|]; [|discriminate]. cbn [bind] in E2.
    match type of E2 with (let* g := ?b in _) = _ => destruct b as [g|] end; [|discriminate]. cbn [bind] in E2. injection E2 as <-. reflexivity. }
  destruct (set_yattr m2 yN0) as [m3|] eqn:E3; [|discriminate]. cbn [bind] in E.
  assert (S3 : m_scaling m3 = m_scaling m2).
  { unfold set_yattr in E3. destruct (Nat.eqb _ _); [|discriminate]. destruct (goal_attr m2 yN0) as [g|]; [|discriminate]. cbn [bind] in E3. injection E3 as <-. reflexivity. }
  destruct (get_range_per_dim t) as [am|]; [|discriminate]. cbn [bind] in E. cbv zeta in E.
  set (M := upd_amps m3 (Some am)) in E. assert (S4 : m_scaling M = m_scaling m3) by reflexivity.
  match type of E with (let* m := ?b in _) = _ => destruct b as [m4|] eqn:E4 end; [|discriminate]. cbn [bind] in E. injection E as <-.
  assert (S5 : m_scaling m4 = m_scaling M).
  { destruct (m_fas M); [|injection E4 as <-; reflexivity]. destruct (targets pf M t) as [pt|]; [|discriminate]. cbn [bind] in E4.
    match type of E4 with context [mapM ?g ?l] => destruct (mapM g l) as [tr|] end; [|discriminate]. cbn [bind] in E4. injection E4 as <-. reflexivity. }
  cbn [upd_ts m_scaling]. congruence.
Qed.
