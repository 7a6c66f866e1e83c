(** The dimensions of DMPs do not influence each other: analytical solutions and initial states. *)
From Coq Require Import String Lia Lra.
From Verif Require Import Base BaseLemmas DynModel DynSpec DynProofs DynProofs2 ParamModel TrajModel DmpModel DmpSpec DmpSpec2 DmpProofs DmpProofs2 DmpProofs5 DmpProofs6 DmpProofs7 DmpProofs13 DmpProofs14 DmpProofs17 DmpProofs19 DmpProofs20 IntModel PushSpec PushProofs PushProofs2 SchedProofs2 ReachProofs2 DimSpec DimProofs.
Open Scope R_scope.

Lemma map_at (f : R -> list R) ts k : (k < length ts)%nat -> nth k (map f ts) [] = f (nth k ts 0).
Proof. intros H. rewrite (nth_indep _ [] (f 0)) by now rewrite map_length. apply map_nth. Qed.

Section D.
Variables pf pf' : nat -> list (string * pval) -> R -> res R.
Variables m m' : dmp.
Variables i j : nat.
Hypothesis W : wf pf m.
Hypothesis W' : wf pf' m'.
Hypothesis Sd : same_dimension pf pf' m m' i j.
Hypothesis St : same_start m m' i j.
Hypothesis Sy : synced m.
Hypothesis Sy' : synced m'.
Hypothesis Pg : plain_goal m.
Hypothesis Pg' : plain_goal m'.
Notation sv := (same_state m m' i j).

Lemma goal_same ts xs xs' xds xds' :
  match m_goal m with
  | None => forall k i, (k < length ts)%nat -> (i < m_dim m)%nat -> gv (m_dim m) xs k i = nth i (m_attr m) 0 /\ gv (m_dim m) xds k i = 0
  | Some g => exists ps pds, sub_ana g ts = Ok (ps, pds) /\
     forall k i, (k < length ts)%nat -> (i < m_dim m)%nat -> gv (m_dim m) xs k i = at_ ps k i /\ gv (m_dim m) xds k i = at_ pds k i
  end ->
  match m_goal m' with
  | None => forall k i, (k < length ts)%nat -> (i < m_dim m')%nat -> gv (m_dim m') xs' k i = nth i (m_attr m') 0 /\ gv (m_dim m') xds' k i = 0
  | Some g => exists ps pds, sub_ana g ts = Ok (ps, pds) /\
     forall k i, (k < length ts)%nat -> (i < m_dim m')%nat -> gv (m_dim m') xs' k i = at_ ps k i /\ gv (m_dim m') xds' k i = at_ pds k i
  end ->
  forall k, (k < length ts)%nat -> gv (m_dim m') xs' k j = gv (m_dim m) xs k i /\ gv (m_dim m') xds' k j = gv (m_dim m) xds k i.
Proof.
  destruct Sd as (Hi & Hj & _ & _ & _ & _ & _ & _ & _ & _ & At & _ & _ & Go). destruct St as (_ & _ & Si).
  assert (O : opt_ok (m_dim m) (m_goal m)) by apply W. assert (O' : opt_ok (m_dim m') (m_goal m')) by apply W'. unfold synced in Sy, Sy'.
  destruct (m_goal m) as [[e| | |]|]; try contradiction; destruct (m_goal m') as [[e'| | |]|]; try contradiction.
  - destruct Go as (_ & _ & Te & Ae). destruct O as ((O1 & O2 & O3) & O4). destruct O' as ((O1' & O2' & O3') & O4'). unfold sub_dim in O4, O4'. cbn [sub_init sub_tau] in *.
    intros (ps & pds & E & H) (ps' & pds' & E' & H') k Hk. cbn [sub_ana] in E, E'. rewrite e_ana_ok in E, E' by trivial. injection E as <- <-. injection E' as <- <-.
    destruct (H k i Hk Hi) as [-> ->]. destruct (H' k j Hk Hj) as [-> ->]. unfold at_. rewrite (map_at (eX e)), (map_at (eX e')), (map_at (eXd e)), (map_at (eXd e')) by trivial.
    unfold eX, eXd. rewrite !nth_map_seq by lia. rewrite Te, Ae, Si, Sy, Sy', At. split; reflexivity.
  - intros H H' k Hk. destruct (H k i Hk Hi) as [-> ->]. destruct (H' k j Hk Hj) as [-> ->]. split; [exact At|reflexivity].
Qed.
Lemma rows_same ts sup r r' : rollout_spec pf m ts sup r -> rollout_spec pf' m' ts sup r' ->
  forall k, (k < length ts)%nat -> sv (nth k (a_xs r) []) (nth k (a_xs r') []) /\ sv (nth k (a_xds r) []) (nth k (a_xds r') []).
Proof.
  intros (_ & _ & _ & _ & _ & (ps & pds & Ep & Hp) & (gs & gds & Eg & Hg) & Ggo & Gda & Ffo & S0 & Dx & Nx)
         (_ & _ & _ & _ & _ & (ps' & pds' & Ep' & Hp') & (gs' & gds' & Eg' & Hg') & Ggo' & Gda' & Ffo' & S0' & Dx' & Nx').
  pose proof (goal_same ts _ _ _ _ Ggo Ggo') as GG. clear Ggo Ggo'.
  destruct Sd as (Hi & Hj & Et & P & G & D & D' & S1 & S2 & S3 & At & Fc & Pd & Go). destruct St as (I1 & I2 & _).
  rewrite P in Ep'. rewrite G in Eg'. rewrite Ep in Ep'. rewrite Eg in Eg'. injection Ep' as <- <-. injection Eg' as <- <-. rewrite D in Gda. rewrite D' in Gda'.
  assert (Ph : forall k, (k < length ts)%nat -> pv (m_dim m') (a_xs r') k = pv (m_dim m) (a_xs r) k /\ pv (m_dim m') (a_xds r') k = pv (m_dim m) (a_xds r) k).
  { intros k Hk. destruct (Hp k Hk) as [-> ->]. destruct (Hp' k Hk) as [-> ->]. now split. }
  assert (Ga : forall k, (k < length ts)%nat -> av (m_dim m') (a_xs r') k = av (m_dim m) (a_xs r) k /\ av (m_dim m') (a_xds r') k = av (m_dim m) (a_xds r) k).
  { intros k Hk. destruct (Hg k Hk) as [-> ->]. destruct (Hg' k Hk) as [-> ->]. now split. }
  assert (Fo : forall k, (k < length ts)%nat -> at_ (a_forcing r') k j = at_ (a_forcing r) k i).
  { intros k Hk. destruct (Ffo k i Hk Hi) as [F1 ->]. destruct (Ffo' k j Hk Hj) as [F1' ->]. rewrite F1, F1', (proj1 (Ph k Hk)), (proj1 (Ga k Hk)), Fc, Pd. reflexivity. }
  assert (Tg : forall g, target m' g j = target m g i).
  { intros g. unfold target. unfold plain_goal in Pg, Pg'. destruct (m_goal m) as [[e| | |]|]; try contradiction; destruct (m_goal m') as [[e'| | |]|]; try contradiction.
    - destruct Go as (R1 & R2 & _). now rewrite R1, R2.
    - now rewrite (Pg eq_refl), (Pg' eq_refl). }
  assert (Dr : forall k, (k < length ts)%nat -> yv (a_xs r') k j = yv (a_xs r) k i -> zv (m_dim m') (a_xs r') k j = zv (m_dim m) (a_xs r) k i ->
    yv (a_xds r') k j = yv (a_xds r) k i /\ zv (m_dim m') (a_xds r') k j = zv (m_dim m) (a_xds r) k i).
  { intros k Hk Y Z. destruct (Dx k i Hk Hi) as [-> ->]. destruct (Dx' k j Hk Hj) as [-> ->]. rewrite Y, Z, Et. split; [reflexivity|].
    rewrite (proj1 (Gda k i Hk Hi)), (proj1 (Gda' k j Hk Hj)), (Fo k Hk), (proj1 (GG k Hk)). unfold accel. rewrite S1, S2, S3, Et, Tg. reflexivity. }
  assert (YZ : forall k, (k < length ts)%nat -> yv (a_xs r') k j = yv (a_xs r) k i /\ zv (m_dim m') (a_xs r') k j = zv (m_dim m) (a_xs r) k i).
  { induction k as [|k IH]; intros Hk.
    - destruct (S0 i Hi) as [-> ->]. destruct (S0' j Hj) as [-> ->]. now split.
    - destruct (IH ltac:(lia)) as [Y Z]. destruct (Dr k ltac:(lia) Y Z) as [Y' Z']. destruct (Nx k i Hk Hi) as [-> ->]. destruct (Nx' k j Hk Hj) as [-> ->]. rewrite Y, Z, Y', Z'. now split. }
  intros k Hk. destruct (YZ k Hk) as [Y Z]. destruct (Dr k Hk Y Z) as [Y' Z']. destruct (GG k Hk) as [G1 G2]. destruct (Ph k Hk) as [P1 P2]. destruct (Ga k Hk) as [A1 A2].
  split; unfold same_state; cbv zeta; repeat split; assumption.
Qed.
Lemma rollouts_same ts sup : ts <> [] -> exists r r', ana pf m ts sup = Ok r /\ ana pf' m' ts sup = Ok r' /\
  forall k, (k < length ts)%nat -> sv (nth k (a_xs r) []) (nth k (a_xs r') []) /\ sv (nth k (a_xds r) []) (nth k (a_xds r') []).
Proof.
  intros Hn. destruct (ana_total pf m ts sup W Hn) as (r & Er & Sp). destruct (ana_total pf' m' ts sup W' Hn) as (r' & Er' & Sp').
  exists r, r'. split; [exact Er|]. split; [exact Er'|]. exact (rows_same ts sup r r' Sp Sp').
Qed.
Lemma executions_same me dt : unrestricted (m_phase m) -> unrestricted (m_gating m) -> dmp_regular m 0 -> dmp_regular m' 0 ->
  exists m0 x xd m0' x' xd', m_start pf m None = Ok (m0, x, xd) /\ m_start pf' m' None = Ok (m0', x', xd') /\ sv x x' /\
  forall k, exists m2 y m2' y', steps pf me m0 dt x k = Ok (m2, y) /\ steps pf' me m0' dt x' k = Ok (m2', y') /\ sv y y'.
Proof.
  intros U1 U2 R R'. destruct (rollouts_same [0] false ltac:(discriminate)) as (r & r' & Er & Er' & H). destruct (H 0%nat ltac:(cbn; lia)) as [V _].
  destruct (start_first pf m [] false r W Sy Pg R Er) as (m0 & xd & E & _). destruct (start_first pf' m' [] false r' W' Sy' Pg' R' Er') as (m0' & xd' & E' & _).
  exists m0, (nth 0 (a_xs r) []), xd, m0', (nth 0 (a_xs r') []), xd'. split; [exact E|]. split; [exact E'|]. split; [exact V|]. intros k.
  destruct (steps_same pf pf' m m' i j W W' Sd U1 U2 me dt k m0 m0' _ _ (start_touch pf _ _ _ _ E) (start_touch pf' _ _ _ _ E') (start_length pf _ _ _ _ E) (start_length pf' _ _ _ _ E') V)
    as (m2 & y & m2' & y' & Q & Q' & _ & _ & _ & _ & V2). now exists m2, y, m2', y'.
Qed.
End D.
