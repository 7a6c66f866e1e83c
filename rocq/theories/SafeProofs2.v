(** Proofs: all rollouts of an optimization with a bounded distribution are close to each other. *)
From Coq Require Import String.
From Verif Require Import Base BaseLemmas SessionModel SessionSpec UpdatersModel UpdatersSpec LoopModel LoopSpec EquivSpec ParamModel ParamSpec FaModel TrajModel TrajSpec TrajProofs TrajProofs2 TrajProofs3
  DynModel DynSpec DmpModel DmpSpec DmpProofs7 DmpProofs8 DmpProofs17 DmpProofs18 TaskModel TaskSpec TaskProofs TaskProofs2 CppModel CppSpec ExploreSpec ViaSpec ViaProofs ViaProofs2 ViaProofs5 ReproSpec ReproProofs3
  UpdatersModel UpdatersSpec SafeSpec SafeProofs.
Open Scope string_scope.
Open Scope R_scope.

(** ** values between bounds *)
Lemma above_bound lo j l x : bound_at lo j = Some l -> above lo j x -> l <= x.
Proof. destruct lo as [|r|[|r [|r' t]]]; cbn; intros E H; try discriminate; try (injection E as <-; exact H). - destruct j; discriminate. - now apply H. Qed.
Lemma below_bound up j u x : bound_at up j = Some u -> below up j x -> x <= u.
Proof. destruct up as [|r|[|r [|r' t]]]; cbn; intros E H; try discriminate; try (injection E as <-; exact H). - destruct j; discriminate. - now apply H. Qed.
Lemma inside_within lo up N e x y : narrow lo up N e -> inside lo up N x -> inside lo up N y -> within e x y.
Proof.
  intros Hw [Lx Hx] [Ly Hy]. unfold within.
  assert (K : forall j, (j < N)%nat -> Rabs (nth j x 0 - nth j y 0) <= e).
  { intros j Hj. destruct (Hw j Hj) as (l & u & El & Eu & W). destruct (Hx j Hj) as [A1 B1]. destruct (Hy j Hj) as [A2 B2].
    apply (above_bound _ _ _ _ El) in A1. apply (above_bound _ _ _ _ El) in A2. apply (below_bound _ _ _ _ Eu) in B1. apply (below_bound _ _ _ _ Eu) in B2. apply Rabs_le. lra. }
  clear Hw Hx Hy. revert y N Lx Ly K. induction x as [|a x IH]; intros [|b y] N Lx Ly K; cbn in *; try lia; constructor.
  - apply (K 0%nat). lia.
  - apply (IH y (length x)); [reflexivity|lia|]. intros j Hj. apply (K (S j)). lia.
Qed.

(** ** cost variables hold the positions *)
Lemma vars_read (frame : bool) t v : consistent t -> tj_ts t <> [] -> tj_misc t = None -> as_cost_vars frame t = Ok v ->
  extract_t v = Ok (tj_ts t) /\ extract_y (tj_dim t) v = Ok (tj_ys t).
Proof.
  intros Hc Hne Hm E. destruct frame; cbn [as_cost_vars] in E.
  - destruct (dataframe_ok t Hc Hne) as (M & EM & EF); [intros l; congruence|]. rewrite EF in E. cbn [bind fst snd] in E. apply ok_inj in E. subst v.
    rewrite (frame_t t M Hc EM). split; [reflexivity|]. cbn [extract_y]. exact (frame_ys t M Hc EM).
  - destruct (as_matrix_rows t Hc) as (M & EM & SM & _). rewrite EM in E. cbn [bind] in E. apply ok_inj in E. subst v.
    cbn [extract_t extract_y]. pose proof SM as (C & _). destruct (Nat.eqb_spec (mcols M) 0); [lia|]. rewrite (times_col t M Hc EM). split; [reflexivity|]. f_equal. exact (cols_ys t M Hc EM).
Qed.

Section E.
Variable kinds : nat -> fa_kind.
Notation pf := (py_predict exp kinds).
Definition vars_of (s : solver) (frame : bool) (x : list R) (v : cost_vars) : Prop :=
  exists r tr, snd (rollout pf s x) = Ok r /\ as_traj (m_dim (o_dmp s)) r = Ok tr /\ as_cost_vars frame tr = Ok v.
Lemma vars_move s frame x v : wf pf (o_dmp s) -> selectable_dmp (pdmp_of (o_dmp s)) -> linear_params kinds (o_dmp s) -> dmp_size (pdmp_of (o_dmp s)) = Ok (length x) -> (1 <= o_n s)%Z ->
  vars_of s frame x v -> forall ts mx r, linspace0 (o_time s) (o_n s) = Ok ts -> m_set_params (o_dmp s) x = (mx, Ok tt) -> ana pf mx ts false = Ok r ->
  extract_t v = Ok ts /\ exists ys, extract_y (m_dim (o_dmp s)) v = Ok ys /\ forall k i, (k < length ts)%nat -> (i < m_dim (o_dmp s))%nat -> mget ys k i = yv (a_xs r) k i.
Proof.
  intros W Hs Hl Hx Hn (r0 & tr & E1 & E2 & E3) ts mx r Ets Em Er.
  destruct (set_made (o_dmp s) x Hs (wf_goal_fits _ _ W) Hx) as (fx & rx & Ex & Mx & _ & _).
  pose proof (made_wf exp kinds (o_dmp s) x fx rx W Hs Hl Hx Ex) as Wx. rewrite Mx in Em. apply (f_equal fst) in Em. cbn [fst] in Em. subst mx.
  destruct (rollout_spec_of pf s x _ Wx Mx Hn) as (ts' & r' & Ets' & Hne & Er' & Es). rewrite Ets in Ets'. apply ok_inj in Ets'. subst ts'. rewrite Er in Er'. apply ok_inj in Er'. subst r'.
  rewrite Es in E1. apply ok_inj in E1. subst r0.
  destruct (as_traj_ok (m_dim (o_dmp s)) ts (yv (a_xs r)) (yv (a_xds r)) (fun j i => zv (m_dim (o_dmp s)) (a_xds r) j i / m_tau (o_dmp s))) as (t & Et & Hc & T1 & T2 & T3 & T4).
  change (m_dim (made (o_dmp s) fx rx)) with (m_dim (o_dmp s)) in E2. change (m_tau (made (o_dmp s) fx rx)) with (m_tau (o_dmp s)) in E2. rewrite Et in E2. apply ok_inj in E2. subst tr.
  destruct (vars_read frame t v Hc ltac:(rewrite T1; exact Hne) T3 E3) as [R1 R2]. rewrite T1 in R1. rewrite T2 in R2. split; [exact R1|]. exists (tj_ys t). split; [exact R2|].
  intros k i Hk Hi. exact (proj1 (T4 k i Hk Hi)).
Qed.
(** phase and gating do not depend on the parameters *)
Lemma same_parts m m' ts r r' : wf pf m -> wf pf m' -> ts <> [] -> m_phase m' = m_phase m -> m_gating m' = m_gating m -> m_dim m' = m_dim m ->
  ana pf m ts false = Ok r -> ana pf m' ts false = Ok r' ->
  forall k, (k < length ts)%nat -> pv (m_dim m) (a_xs r') k = pv (m_dim m) (a_xs r) k /\ av (m_dim m) (a_xs r') k = av (m_dim m) (a_xs r) k.
Proof.
  intros W W' Hne E1 E2 E3 Er Er' k Hk. destruct (ana_total pf m ts false W Hne) as (q & Q & Sx). destruct (ana_total pf m' ts false W' Hne) as (q' & Q' & Sy).
  rewrite Er in Q. apply ok_inj in Q. subst q. rewrite Er' in Q'. apply ok_inj in Q'. subst q'.
  destruct Sx as (_ & _ & _ & _ & _ & (ppx & ppdx & Phx & Hpx) & (pgx & pgdx & Gax & Hax) & _).
  destruct Sy as (_ & _ & _ & _ & _ & (ppy & ppdy & Phy & Hpy) & (pgy & pgdy & Gay & Hay) & _).
  rewrite E1, Phx in Phy. injection Phy as <- <-. rewrite E2, Gax in Gay. injection Gay as <- <-. rewrite E3 in *.
  rewrite (proj1 (Hpx k Hk)), (proj1 (Hpy k Hk)), (proj1 (Hax k Hk)), (proj1 (Hay k Hk)). now split.
Qed.

(** ** two rollouts *)
Theorem pair_close s (frame : bool) lo up N e x x' v v' ts i n a b c :
  wf pf (o_dmp s) -> selectable_dmp (pdmp_of (o_dmp s)) -> linear_params kinds (o_dmp s) -> ~ In "goal" (m_sel (o_dmp s)) -> basis_upto (o_dmp s) i n ->
  dmp_size (pdmp_of (o_dmp s)) = Ok N -> (1 <= o_n s)%Z -> 0 <= e -> narrow lo up N e -> inside lo up N x -> inside lo up N x' ->
  linspace0 (o_time s) (o_n s) = Ok ts -> (i < m_dim (o_dmp s))%nat -> damped (o_dmp s) i a b -> steps_upto b ts ->
  (forall r, ana pf (o_dmp s) ts false = Ok r -> forall k, (k < length ts)%nat -> Rabs (pv (m_dim (o_dmp s)) (a_xs r) k) <= 1 /\ Rabs (av (m_dim (o_dmp s)) (a_xs r) k * factor (o_dmp s) i) <= c) ->
  vars_of s frame x v -> vars_of s frame x' v' ->
  extract_t v = Ok ts /\ extract_t v' = Ok ts /\ exists ys ys', extract_y (m_dim (o_dmp s)) v = Ok ys /\ extract_y (m_dim (o_dmp s)) v' = Ok ys' /\
    forall k, (k < length ts)%nat -> Rabs (mget ys' k i - mget ys k i) <= c * (gain (kinds i) n * e) / (a * a).
Proof.
  intros W Hs Hl Hg Hb HN Hn He Hw Hx Hx' Ets Hi Dp St Hpa V V'. pose proof (ts_nonempty _ _ _ Ets Hn) as Hne.
  assert (Sx : dmp_size (pdmp_of (o_dmp s)) = Ok (length x)) by (rewrite (proj1 Hx); exact HN).
  assert (Sx' : dmp_size (pdmp_of (o_dmp s)) = Ok (length x')) by (rewrite (proj1 Hx'); exact HN).
  destruct (explored kinds (o_dmp s) x x' e ts i n a b c He W Hs Hl Hg Hb Sx (inside_within lo up N e x x' Hw Hx Hx') Hne Hi Dp St) as (mx & my & rx & ry & Mx & My & Ex & Ey & K).
  destruct (vars_move s frame x v W Hs Hl Sx Hn V ts mx rx Ets Mx Ex) as (T1 & ys & Y1 & Z1).
  destruct (vars_move s frame x' v' W Hs Hl Sx' Hn V' ts my ry Ets My Ey) as (T2 & ys' & Y2 & Z2).
  split; [exact T1|]. split; [exact T2|]. exists ys, ys'. split; [exact Y1|]. split; [exact Y2|]. intros k Hk. rewrite Z1, Z2 by trivial.
  apply K; [|exact Hk]. intros k0 Hk0. destruct (ana_total pf (o_dmp s) ts false W Hne) as (r & Er & _).
  destruct (set_made (o_dmp s) x Hs (wf_goal_fits _ _ W) Sx) as (fx & gx & Ef & Mf & _ & _). pose proof (made_wf exp kinds (o_dmp s) x fx gx W Hs Hl Sx Ef) as Wx.
  rewrite Mx in Mf. apply (f_equal fst) in Mf. cbn [fst] in Mf. subst mx.
  destruct (same_parts (o_dmp s) _ ts r rx W Wx Hne eq_refl eq_refl eq_refl Er Ex k0 Hk0) as [-> ->]. exact (Hpa r Er k0 Hk0).
Qed.

(** ** optimizations *)
Lemma rollout_dim s x : m_dim (o_dmp (fst (rollout pf s x))) = m_dim (o_dmp s).
Proof. unfold rollout. pose proof (set_params_dim (o_dmp s) x) as K. destruct (m_set_params (o_dmp s) x) as (m, [t|er]); exact K. Qed.
Lemma rollouts_dim hs : forall s, m_dim (o_dmp (DmpModel.rollouts pf s hs)) = m_dim (o_dmp s).
Proof. induction hs as [|h hs IH]; intros s; [reflexivity|]. cbn [DmpModel.rollouts]. now rewrite IH, rollout_dim. Qed.
Theorem optimization_close (frame : bool) argsort P G category rng u s k lo up N e nu w0 r tk solver upd d0 j (st0 st1 : st cost_vars P (G * DmpModel.solver)) q ts i n a b c :
  argsort_ok argsort -> sized rng -> ordered lo up -> bounded_dist lo up N d0 ->
  wf pf (o_dmp s) -> selectable_dmp (pdmp_of (o_dmp s)) -> linear_params kinds (o_dmp s) -> ~ In "goal" (m_sel (o_dmp s)) -> basis_upto (o_dmp s) i n ->
  dmp_size (pdmp_of (o_dmp s)) = Ok N -> (1 <= o_n s)%Z -> 0 <= e -> narrow lo up N e ->
  linspace0 (o_time s) (o_n s) = Ok ts -> (i < m_dim (o_dmp s))%nat -> damped (o_dmp s) i a b -> steps_upto b ts ->
  (forall r, ana pf (o_dmp s) ts false = Ok r -> forall k, (k < length ts)%nat -> Rabs (pv (m_dim (o_dmp s)) (a_xs r) k) <= 1 /\ Rabs (av (m_dim (o_dmp s)) (a_xs r) k * factor (o_dmp s) i) <= c) ->
  snd (st_out st0) = s -> st_trace st0 = [] ->
  run_optimization_task cost_vars P (G * DmpModel.solver) category (via_oracles rng argsort u pf frame k) w0 r tk solver upd d0 j nu st0 = (st1, q) ->
  forall x v x' v', In (ERoll x v) (st_trace st1) -> In (ERoll x' v') (st_trace st1) ->
  extract_t v = Ok ts /\ extract_t v' = Ok ts /\ exists ys ys', extract_y (m_dim (o_dmp s)) v = Ok ys /\ extract_y (m_dim (o_dmp s)) v' = Ok ys' /\
    forall l, (l < length ts)%nat -> Rabs (mget ys' l i - mget ys l i) <= c * (gain (kinds i) n * e) / (a * a).
Proof.
  intros Hsort Hsz Ho Hd W Hs Hl Hg Hb HN Hn He Hw Ets Hi Dp St Hpa Eo T0 E.
  assert (K : forall x v, In (ERoll x v) (st_trace st1) -> inside lo up N x /\ vars_of s frame x v).
  { intros x v Hv. unfold via_oracles in E.
    assert (T : forall e, In e (st_trace st1) -> In e (st_trace st0) \/ (event_inside lo up N e /\ match e with ERoll x v => vars_of s frame x v | _ => True end)).
    { refine (proj1 (world_inv argsort Hsort lo up N Ho cost_vars P (G * DmpModel.solver) category _ u (via_sized G rng Hsz) (reached exp kinds G s) (vars_of s frame) _ _ _ nu _ _ _ _ w0 r tk solver upd d0 j st0 st1 q E _ Hd)).
      - intros o mean C (hs & Eh). exists hs. destruct (rng (fst o) mean C nu). exact Eh.
      - intros o x0 H. exact H.
      - intros o v0 x0 H. exact H.
      - intros o x0 o' q0 (hs & Eh) Hx0 Er. cbv beta in Er. destruct (rollout pf (snd o) x0) as [s' r0] eqn:Ero. injection Er as <- Eq. split.
        + exists (hs ++ [x0])%list. rewrite rollouts_snoc, <- Eh, Ero. reflexivity.
        + intros v0 ->. pose proof (history_free (o_dmp s) Hs (wf_attr_len pf _ W) pf s hs x0 eq_refl) as H. rewrite <- Eh, Ero in H. cbn [snd] in H.
          assert (D : m_dim (o_dmp s') = m_dim (o_dmp s)).
          { pose proof (rollout_dim (snd o) x0) as D1. rewrite Ero in D1. cbn [fst] in D1. rewrite D1, Eh. apply rollouts_dim. }
          destruct r0 as [r1|]; [|discriminate]. cbn [bind] in Eq. rewrite D in Eq. destruct (as_traj (m_dim (o_dmp s)) r1) as [tr|] eqn:Et; [|discriminate]. cbn [bind] in Eq.
          exists r1, tr. split; [now symmetry|]. split; [exact Et|exact Eq].
      - exists []. exact Eo. }
    destruct (T _ Hv) as [H|[H1 H2]]; [rewrite T0 in H; destruct H|]. split; [exact H1|exact H2]. }
  intros x v x' v' I1 I2. destruct (K _ _ I1) as [X1 V1]. destruct (K _ _ I2) as [X2 V2].
  exact (pair_close s frame lo up N e x x' v v' ts i n a b c W Hs Hl Hg Hb HN Hn He Hw X1 X2 Ets Hi Dp St Hpa V1 V2).
Qed.
End E.
