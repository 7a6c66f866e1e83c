(** Disturbed executions of DMPs of the types of the constructor, after every history. *)
From Coq Require Import String Lia Lra.
From Verif Require Import Base BaseLemmas DynModel DynSpec DynProofs ParamModel TrajModel DmpModel DmpSpec DmpSpec2 DmpProofs5 DmpProofs12 DmpProofs13 DmpProofs14 DmpProofs16 DmpProofs19 DmpProofs20 SchedProofs2 IntModel PushSpec PushProofs.
Open Scope R_scope.

Section S.
Variable pf : nat -> list (string * pval) -> R -> res R.
Variable tf : nat -> list R -> list R -> res (list (string * pval)).

(** the kinds of the subsystems *)
Definition rich (s : sub) : bool := match s with SubR _ => true | _ => false end.
Definition tags (m : dmp) : bool * bool * option bool * option bool :=
  (rich (m_phase m), rich (m_gating m), option_map rich (m_goal m), option_map rich (m_damping m)).
Lemma rich_tau s t : rich (sub_set_tau s t) = rich s. Proof. now destruct s. Qed.
Lemma rich_decouple s : rich (sub_decouple s) = rich s. Proof. now destruct s. Qed.
Lemma rich_attr s y s' : sub_set_attr s y = Ok s' -> rich s' = rich s.
Proof. destruct s; cbn; try (destruct (Nat.eqb _ _)); intros E; try discriminate; now injection E as <-. Qed.
Lemma rich_init s y s' : sub_set_y_init s y = Ok s' -> rich s' = rich s.
Proof. unfold sub_set_y_init. destruct (set_y_init _ _ _); [|discriminate]. cbn [bind]. intros E. apply (f_equal (fun r => match r with Ok q => q | Err _ => s end)) in E. subst s'. now destruct s. Qed.

Lemma tags_tau m t m' : set_tau m t = Ok m' -> tags m' = tags m.
Proof.
  unfold set_tau. destruct (Req_EM_T _ _); [discriminate|]. intros E. injection E as <-. unfold tags. cbn [upd_tau m_phase m_gating m_goal m_damping].
  rewrite !rich_tau. destruct (m_goal m); cbn [option_map]; now rewrite ?rich_tau.
Qed.
Lemma tags_y0 m y m' : set_y0 m y = Ok m' -> tags m' = tags m.
Proof.
  unfold set_y0. destruct (Nat.eqb _ _); [|discriminate]. destruct (d_set_y_init _ _); [|discriminate]. cbn [bind].
  destruct (m_goal m) as [g|] eqn:Eg.
  - destruct (m_req m).
    + cbn [bind]. intros E. injection E as <-. unfold tags. cbn [upd_y0 m_phase m_gating m_goal m_damping]. now rewrite Eg.
    + destruct (sub_set_y_init g y) as [g'|] eqn:E1; [|discriminate]. cbn [bind]. intros E. injection E as <-. unfold tags. cbn [upd_y0 m_phase m_gating m_goal m_damping option_map].
      now rewrite Eg, (rich_init _ _ _ E1).
  - cbn [bind]. intros E. injection E as <-. unfold tags. cbn [upd_y0 m_phase m_gating m_goal m_damping]. now rewrite Eg.
Qed.
Lemma tags_attr m y g l : goal_attr m y = Ok g -> tags (upd_attr m l g) = tags m.
Proof.
  unfold goal_attr, tags. cbn [upd_attr m_phase m_gating m_goal m_damping]. destruct (m_goal m) as [s|]; [destruct (m_req m)|]; intros E; try (now injection E as <-).
  destruct (sub_set_attr s y) as [s'|] eqn:Es; [|discriminate]. injection E as <-. cbn [option_map]. now rewrite (rich_attr _ _ _ Es).
Qed.
Lemma tags_touched m m' : touched m m' -> tags m' = tags m.
Proof.
  intros (a & p & g & -> & _ & Hg). unfold tags. cbn [upd_spring m_phase m_gating m_goal m_damping]. destruct (m_goal m) as [s|]; [|now rewrite Hg].
  destruct Hg as [->|(g' & -> & E)]; [reflexivity|]. cbn [option_map]. now rewrite (rich_attr _ _ _ E).
Qed.
Lemma tags_change m c m' : apply1 pf tf m c = Ok m' -> tags m' = tags m.
Proof.
  intros E. destruct c as [t|y|y| |n|v|t|c]; cbn [apply1] in *.
  - exact (tags_tau _ _ _ E).
  - exact (tags_y0 _ _ _ E).
  - unfold set_yattr in E. destruct (Nat.eqb _ _); [|discriminate]. destruct (goal_attr m y) eqn:Eg; [|discriminate]. cbn [bind] in E. injection E as <-. exact (tags_attr _ _ _ _ Eg).
  - injection E as <-. unfold tags, m_decouple. cbn [upd_sub m_phase m_gating m_goal m_damping].
    destruct (m_goal m), (m_damping m); cbn [option_map]; now rewrite ?rich_decouple.
  - now injection E as <-.
  - destruct (m_set_params m v) as [m1 [u|]] eqn:Ev; [|discriminate]. cbn [bind] in E. injection E as <-.
    unfold m_set_params in Ev. destruct (dmp_set _ _) as [p [u0|e0]]; [|discriminate]. destruct (mem _ _).
    + destruct (goal_attr _ _) eqn:Eg; [|discriminate]. injection Ev as <- _. exact (tags_attr (upd_fas m (p_fas p)) _ _ _ Eg).
    + now injection Ev as <- _.
  - unfold m_train in E. destruct (last_res (tj_ts t)) as [tau|]; [|discriminate]. cbn [bind] in E.
    destruct (set_tau m tau) as [m1|] eqn:E1; [|discriminate]. cbn [bind] in E. apply tags_tau in E1.
    destruct (nth_res _ _) as [y0|]; [|discriminate]. cbn [bind] in E. destruct (set_y0 m1 y0) as [m2|] eqn:E2; [|discriminate]. cbn [bind] in E. apply tags_y0 in E2.
    destruct (last_res (mrows (tj_ys t))) as [yN|]; [|discriminate]. cbn [bind] in E. unfold set_yattr in E. destruct (Nat.eqb _ _); [|discriminate].
    destruct (goal_attr m2 yN) as [g|] eqn:Eg; [|discriminate]. cbn [bind] in E. destruct (get_range_per_dim t) as [am|]; [|discriminate]. cbn [bind] in E.
    assert (D3 : tags (upd_attr m2 yN g) = tags m) by (rewrite (tags_attr _ _ _ _ Eg); congruence).
    set (m3 := upd_attr m2 yN g) in *. clearbody m3.
    destruct (match m_fas _ with Some fs => _ | None => _ end) as [m4|] eqn:E4; [|discriminate]. cbn [bind] in E. injection E as <-.
    assert (D4 : tags m4 = tags m).
    { destruct (m_fas (upd_amps m3 (Some am))) as [fs|].
      - destruct (targets _ _ _) as [pt|]; [|discriminate]. cbn [bind] in E4. destruct (mapM _ _) as [tr|]; [|discriminate]. cbn [bind] in E4.
        injection E4 as <-. exact D3.
      - injection E4 as <-. exact D3. }
    exact D4.
  - apply tags_touched. destruct c as [x| |ts s]; cbn [reply1] in E.
    + destruct (m_diffeq pf m x) as [[m1 xd]|] eqn:Ed; [|discriminate]. cbn in E. injection E as <-. now apply diffeq_touch in Ed.
    + destruct (m_start pf m None) as [[[m1 x] xd]|] eqn:Ed; [|discriminate]. cbn in E. injection E as <-. now apply start_touch in Ed.
    + destruct (ana pf m ts s) as [r|]; [|discriminate]. cbn in E. injection E as <-. apply touched_refl.
Qed.
Lemma tags_history cs : forall m m', apply_all pf tf m cs = Ok m' -> tags m' = tags m.
Proof.
  induction cs as [|c cs IH]; intros m m' E; cbn [apply_all] in *; [now injection E as <-|].
  destruct (apply1 pf tf m c) as [m1|] eqn:E1; [|discriminate]. cbn [bind] in E. rewrite (IH m1 m' E). exact (tags_change _ _ _ E1).
Qed.
(** DMPs whose steps are possible in all states *)
Definition plain (m : dmp) : Prop := fst (fst (fst (tags m))) = false /\ snd (fst (fst (tags m))) = false /\ snd (fst (tags m)) <> Some true /\ snd (tags m) = None.
Lemma plain_parts m : plain m -> unrestricted (m_phase m) /\ unrestricted (m_gating m) /\ (forall g, m_goal m = Some g -> unrestricted g) /\ m_damping m = None.
Proof.
  unfold plain, tags. cbn [fst snd]. intros (P1 & P2 & P3 & P4). split; [destruct (m_phase m); cbn in *; trivial; discriminate|]. split; [destruct (m_gating m); cbn in *; trivial; discriminate|]. split.
  - intros g Eg. rewrite Eg in P3. destruct g; cbn in *; trivial. now contradiction P3.
  - destruct (m_damping m); [discriminate|reflexivity].
Qed.
Lemma diffeq_plain m m1 x : wf pf m -> plain m -> touched m m1 -> length x = dim_x m -> exists m2 xd, m_diffeq pf m1 x = Ok (m2, xd) /\ touched m m2 /\ length xd = dim_x m.
Proof.
  intros W P T L. destruct (plain_parts m P) as (P1 & P2 & P3 & P4).
  destruct (diffeq_total pf m x W L P1 P2 P3 ltac:(intros s Es; congruence)) as (m2 & xd & E). exists m2, xd. rewrite (touch_diffeq pf m m1 x T). split; [exact E|].
  split; [exact (diffeq_touch pf _ _ _ _ E)|]. exact (proj1 (proj1 (equation_iff pf m W x xd L) (ex_intro _ _ E))).
Qed.
Lemma vop_total n (f : R -> R) (a b : list R) : length a = n -> length b = n -> exists c, vop Rplus a (map f b) = Ok c /\ length c = n.
Proof. intros La Lb. rewrite vop_same by (rewrite map_length; congruence). eexists. split; [reflexivity|]. rewrite map2_length, map_length. lia. Qed.
Lemma step_plain me dt m m1 x : wf pf m -> plain m -> touched m m1 -> length x = dim_x m ->
  exists m2 y xd, m_step pf me m1 dt x = Ok (m2, y, xd) /\ touched m m2 /\ length y = dim_x m.
Proof.
  intros W P T L. pose proof (proj1 (touched_dim m m1 T)) as Dx.
  destruct me; unfold m_step, m_step_rk, m_step_euler; rewrite Dx, L, Nat.eqb_refl.
  - destruct (diffeq_plain m m1 x W P T L) as (m2 & k1 & -> & T2 & L1). cbn [bind].
    destruct (vop_total _ (Rmult (dt * 0.5)) x k1 L L1) as (i2 & -> & L2). cbn [bind].
    destruct (diffeq_plain m m2 i2 W P T2 L2) as (m3 & k2 & -> & T3 & L3). cbn [bind].
    destruct (vop_total _ (Rmult (dt * 0.5)) x k2 L L3) as (i3 & -> & L4). cbn [bind].
    destruct (diffeq_plain m m3 i3 W P T3 L4) as (m4 & k3 & -> & T4 & L5). cbn [bind].
    destruct (vop_total _ (Rmult dt) x k3 L L5) as (i4 & -> & L6). cbn [bind].
    destruct (diffeq_plain m m4 i4 W P T4 L6) as (m5 & k4 & -> & T5 & L7). cbn [bind].
    destruct (vop_total _ (fun r => r) k2 k3 L3 L5) as (s23 & E8 & L8). rewrite map_id in E8. rewrite E8. cbn [bind].
    destruct (vop_total _ (Rmult 2) k1 s23 L1 L8) as (s123 & -> & L9). cbn [bind].
    destruct (vop_total _ (fun r => r) s123 k4 L9 L7) as (s & E10 & L10). rewrite map_id in E10. rewrite E10. cbn [bind].
    destruct (vop_total _ (fun v => dt * v / 6) x s L L10) as (y & -> & L11). cbn [bind].
    destruct (diffeq_plain m m5 y W P T5 L11) as (m6 & xd & -> & T6 & _). cbn [bind]. now exists m6, y, xd.
  - destruct (diffeq_plain m m1 x W P T L) as (m2 & k1 & -> & T2 & L1). cbn [bind].
    destruct (vop_total _ (Rmult dt) x k1 L L1) as (y & -> & L2). cbn [bind]. now exists m2, y, k1.
Qed.
Lemma steps_plain me dt k : forall m m1 x, wf pf m -> plain m -> touched m m1 -> length x = dim_x m ->
  exists m2 y, steps pf me m1 dt x k = Ok (m2, y) /\ touched m m2 /\ length y = dim_x m.
Proof.
  induction k as [|k IH]; intros m m1 x W P T L; cbn [steps]; [now exists m1, x|].
  destruct (step_plain me dt m m1 x W P T L) as (m2 & y & xd & -> & T2 & L2). cbn [bind fst snd]. now apply IH.
Qed.

Lemma critically_history ty tau y0 attr fas kw m cs m' : predicts pf tf -> 0 < tau -> length attr = length y0 -> full_kw (length y0) kw ->
  (forall s b, ty <> Sct23 s b) -> new_dmp ty tau y0 attr fas kw = Ok m -> sound pf m -> allowed pf tf m cs -> Forall forward cs -> apply_all pf tf m cs = Ok m' ->
  plain m' /\ 0 < m_tau m' /\ forall i, (i < m_dim m')%nat -> critically m' i (par_val (opt (k_alpha kw) (PScal 20)) i / 2).
Proof.
  intros Pr Ht La K Hty En S A F E.
  assert (D : plain m).
  { pose proof K as (K1 & K2 & K3 & K4 & K5 & _). unfold new_dmp in En. rewrite K1, K2, K3, K4, K5 in En. cbn [opt] in En.
    destruct (default_subs _ _ _ _ _) as [[[[go ga] ph] da]|] eqn:Ed; [|discriminate]. cbn [bind] in En. injection En as <-.
    unfold plain, tags. cbn [m_phase m_gating m_goal m_damping fst snd].
    destruct ty as [| | |s b]; cbn [default_subs] in Ed; [injection Ed as <- <- <- <-; now repeat split| | |now contradiction (Hty s b)];
      (destruct (for_gating _ _ _); [|discriminate]; cbn [bind] in Ed; injection Ed as <- <- <- <-; now repeat split). }
  pose proof (inv_new ty tau y0 attr fas kw m Ht La K (Hty true) En) as I0.
  destruct (inv_history pf tf Pr _ _ _ cs m m' S I0 A F E) as (T & _ & _ & C).
  assert (D' : plain m') by (unfold plain; rewrite (tags_history cs m m' E); exact D).
  split; [exact D'|]. split; [exact T|]. intros i Hi. destruct (plain_parts m' D') as (_ & _ & _ & D0).
  destruct (C i Hi) as (C1 & C2 & C3). unfold settles in C1. rewrite D0 in C1.
  unfold critically. rewrite C1, C2, C3. split; [exact D0|]. split; field.
Qed.

(** integrate_start and j steps, the push, and k steps *)
Lemma history_forgotten me ty tau y0 attr fas kw m cs m' dt j i : predicts pf tf -> 0 < tau -> length attr = length y0 -> full_kw (length y0) kw ->
  (forall s b, ty <> Sct23 s b) -> new_dmp ty tau y0 attr fas kw = Ok m -> sound pf m -> allowed pf tf m cs -> Forall forward cs -> apply_all pf tf m cs = Ok m' ->
  ready m' -> let d := par_val (opt (k_alpha kw) (PScal 20)) i in (i < m_dim m')%nat -> 0 < d -> 0 < dt -> d * dt < 4 * m_tau m' ->
  forall m0 x0 xd0, m_start pf m' None = Ok (m0, x0, xd0) -> exists m1 x, steps pf me m0 dt x0 j = Ok (m1, x) /\
    forall x', pushed m' x x' -> forall eps, 0 < eps -> exists K, forall k, (K <= k)%nat ->
      exists m2 y m2' y', steps pf me m1 dt x k = Ok (m2, y) /\ steps pf me m1 dt x' k = Ok (m2', y') /\ pushed m' y y' /\
        Rabs (dpos i y y') <= eps /\ Rabs (dvel m' i y y') <= eps.
Proof.
  intros Pr Ht La K Hty En S A F E Rd d Hi Hd Hdt Hs m0 x0 xd0 E0.
  destruct (history_sound pf tf Pr cs m m' S A E) as (S' & _). pose proof (sound_wf pf m' S' Rd) as W.
  destruct (critically_history ty tau y0 attr fas kw m cs m' Pr Ht La K Hty En S A F E) as (P & T & C). specialize (C i Hi). fold d in C.
  pose proof (start_length pf _ _ _ _ E0) as L0.
  pose proof (start_touch pf _ _ _ _ E0) as T0.
  destruct (touched_dim m' m0 T0) as (Dx & Dm & Dt).
  destruct (steps_plain me dt j m' m0 x0 W P T0 L0) as (m1 & x & E1 & T1 & L1).
  exists m1, x. split; [exact E1|]. intros x' Px eps He.
  assert (W1 : wf pf m1).
  { destruct (touched_sound pf m' m1 S' T1) as (S1 & _ & R1 & _). exact (sound_wf pf m1 S1 (R1 Rd)). }
  destruct (touched_dim m' m1 T1) as (Dx1 & Dm1 & Dt1).
  assert (C1 : critically m1 i (d / 2)).
  { pose proof C as (Q1 & Q2 & Q3). destruct T1 as (a & p & g & -> & Hp & _). unfold critically. cbn [upd_spring m_damping m_spring d_mass d_damp d_spring].
    split; [exact Q1|]. split; [|exact Q3]. destruct Hp as [->|[Hp _]]; [exact Q2|now contradiction Hp]. }
  assert (Px1 : pushed m1 x x') by (unfold pushed in *; rewrite Dx1, Dm1; exact Px).
  destruct (forgotten pf me m1 dt x 0 m1 x x' i (d / 2) W1 ltac:(lia) C1) with (eps := eps) as (K0 & HK); trivial.
  { rewrite Dt1. split.
    - apply Rmult_lt_0_compat; [|now apply Rinv_0_lt_compat]. apply Rmult_lt_0_compat; lra.
    - apply (Rmult_lt_reg_r (m_tau m')); [exact T|]. replace (d / 2 * dt / m_tau m' * m_tau m') with (d * dt / 2) by (field; lra). lra. }
  exists K0. intros k Hk. destruct (steps_plain me dt k m' m1 x W P T1 L1) as (m2 & y & E2 & _ & _).
  destruct (HK k m2 y Hk E2) as (m2' & y' & E3 & Py & B1 & B2). exists m2, y, m2', y'. split; [exact E2|]. split; [exact E3|].
  unfold pushed, dvel in *. rewrite Dx1, Dm1 in Py. rewrite Dm1 in B2. now split.
Qed.
End S.
