(** Proofs about DMPs: what keeps a DMP convergent through every history. *)
From Coq Require Import String.
From Verif Require Import Base BaseLemmas DynModel DynSpec DynProofs DynProofs2 DynProofs6 ParamModel ParamSpec ParamProofs TrajModel DmpModel DmpSpec DmpProofs DmpProofs2 DmpProofs3 DmpProofs4 DmpProofs5 DmpProofs7 DmpProofs8 DmpProofs9 DmpProofs12 DmpProofs13 DmpProofs14 DmpProofs16.
Open Scope R_scope.

Lemma limit_tau s c i l : limit s i l -> 0 < c -> limit (sub_set_tau s (sub_tau s * c)) i l.
Proof.
  destruct s as [e|g|h|h]; cbn; trivial; intros [H1 H2] Hc; (split; [exact H1|]).
  - assert (Ht : e_tau e <> 0) by (intros E; rewrite E in H2; unfold Rdiv in H2; rewrite Rinv_0, Rmult_0_r in H2; lra).
    replace (par_val (e_alpha e) i / (e_tau e * c)) with (par_val (e_alpha e) i / e_tau e * / c) by (field; lra).
    apply Rmult_lt_0_compat; [exact H2|now apply Rinv_0_lt_compat].
  - assert (Ht : h_tau h <> 0) by (intros E; rewrite E in H2; unfold Rdiv in H2; rewrite Rinv_0, Rmult_0_r in H2; lra).
    replace (par_val (h_alpha h) i / (h_tau h * c)) with (par_val (h_alpha h) i / h_tau h * / c) by (field; lra).
    apply Rmult_lt_0_compat; [exact H2|now apply Rinv_0_lt_compat].
Qed.
Lemma limit_decouple s i l : (i < sub_dim s)%nat -> limit s i l -> limit (sub_decouple s) i l.
Proof.
  unfold sub_dim. destruct s as [e|g|h|h]; cbn; trivial; intros Hi [H1 H2]; (split; [exact H1|]); now rewrite par_val_decouple.
Qed.

Section S.
Variable pf : nat -> list (string * pval) -> R -> res R.
Variable tf : nat -> list R -> list R -> res (list (string * pval)).
Hypothesis Pr : predicts pf tf.
Variables (Ds Ks Ms : nat -> R).

(** goal systems that follow the attractor through every change *)
Definition inv_goal (m : dmp) : Prop :=
  match m_goal m with
  | None => m_req m = false
  | Some g => forall i, (i < m_dim m)%nat ->
      if m_req m then (exists h, g = SubR h) /\ limit g i 1
      else exists e, g = SubE e /\ nth i (e_attr e) 0 = nth i (m_attr m) 0 /\ 0 < par_val (e_alpha e) i / e_tau e
  end.
Definition inv_const (m : dmp) : Prop := forall i, (i < m_dim m)%nat ->
  settles m i (Ds i) /\ par_val (d_spring (m_spring m)) i = Ks i /\ par_val (d_mass (m_spring m)) i = Ms i.
Definition inv (m : dmp) : Prop := 0 < m_tau m /\ limit (m_gating m) 0 0 /\ inv_goal m /\ inv_const m.

Lemma inv_follows m : inv m -> follows m.
Proof.
  intros (_ & _ & G & _). unfold inv_goal in G. unfold follows. destruct (m_goal m) as [g|]; [|exact G]. intros i Hi. specialize (G i Hi).
  destruct (m_req m); [apply G|]. destruct G as (e & -> & H). exact H.
Qed.
Lemma inv_tau m t m' : inv m -> 0 < t -> set_tau m t = Ok m' -> inv m'.
Proof.
  intros (T & Ga & Go & C) Ht E. unfold set_tau in E. destruct (Req_EM_T _ _); [discriminate|]. injection E as <-.
  assert (Hc : 0 < t / m_tau m) by now apply Rdiv_lt_0_compat. split; [exact Ht|]. split; [now apply limit_tau|]. split; [|exact C].
  unfold inv_goal in *. cbn [upd_tau m_goal m_req m_dim m_attr]. destruct (m_goal m) as [g|]; cbn [option_map]; [|exact Go]. intros i Hi. specialize (Go i Hi).
  destruct (m_req m).
  - destruct Go as [[h ->] Hl]. split; [cbn; eauto|]. now apply limit_tau.
  - destruct Go as (e & -> & H1 & H2). cbn [sub_set_tau]. eexists. split; [reflexivity|]. cbn [e_attr e_alpha e_tau]. split; [exact H1|].
    exact (proj2 (limit_tau (SubE e) (t / m_tau m) i _ (conj eq_refl H2) Hc)).
Qed.
Lemma inv_y0 m y m' : inv m -> set_y0 m y = Ok m' -> inv m'.
Proof.
  intros (T & Ga & Go & C) E. unfold set_y0 in E. destruct (Nat.eqb _ _); [|discriminate].
  destruct (d_set_y_init (m_spring m) y) as [sp|] eqn:Es; [|discriminate]. cbn [bind] in E.
  destruct (match m_goal m with Some g => _ | None => _ end) as [g'|] eqn:Eg; [|discriminate]. cbn [bind] in E. injection E as <-.
  unfold d_set_y_init in Es. destruct (set_y_init _ _ _); [|discriminate]. cbn [bind] in Es. injection Es as <-.
  split; [exact T|]. split; [exact Ga|]. split; [|exact C].
  unfold inv_goal in *. cbn [upd_y0 m_goal m_req m_dim m_attr]. destruct (m_goal m) as [g|]; [|injection Eg as <-; exact Go].
  destruct (m_req m) eqn:Er; [injection Eg as <-; exact Go|].
  destruct (sub_set_y_init g y) as [g1|] eqn:E1; [|discriminate]. cbn [bind] in Eg. injection Eg as <-. intros i Hi. destruct (Go i Hi) as (e & -> & H1 & H2).
  unfold sub_set_y_init in E1. destruct (set_y_init _ _ _); [|discriminate]. cbn [bind] in E1. injection E1 as <-. eexists. split; [reflexivity|]. now split.
Qed.
Lemma inv_attr m y g : inv m -> goal_attr m y = Ok g -> inv (upd_attr m y g).
Proof.
  intros (T & Ga & Go & C) E. split; [exact T|]. split; [exact Ga|]. split; [|exact C]. unfold goal_attr in E.
  unfold inv_goal in *. cbn [upd_attr m_goal m_req m_dim m_attr]. destruct (m_goal m) as [g0|]; [|injection E as <-; exact Go].
  destruct (m_req m) eqn:Er; [injection E as <-; intros i Hi; exact (Go i Hi)|].
  destruct (sub_set_attr g0 y) as [g1|] eqn:E1; [|discriminate]. cbn [bind] in E. injection E as <-. intros i Hi. destruct (Go i Hi) as (e & -> & H1 & H2).
  cbn in E1. destruct (Nat.eqb _ _); [|discriminate]. injection E1 as <-. eexists. split; [reflexivity|]. now split.
Qed.
Lemma inv_same m m' : m_tau m' = m_tau m -> m_gating m' = m_gating m -> m_goal m' = m_goal m -> m_req m' = m_req m -> m_dim m' = m_dim m ->
  m_attr m' = m_attr m -> m_damping m' = m_damping m -> m_spring m' = m_spring m -> inv m -> inv m'.
Proof.
  unfold inv, inv_goal, inv_const, settles. intros -> -> -> -> -> -> -> ->. trivial.
Qed.
Lemma inv_decouple m : sound pf m -> inv m -> inv (m_decouple m).
Proof.
  intros [_ S] (T & Ga & Go & C). pose proof (S (repeat 0 (m_dim m)) (repeat 0 (m_dim m)) (repeat_length _ _) (repeat_length _ _)) as W.
  destruct W as (_ & _ & _ & _ & _ & Dy & _ & _ & _ & _ & _ & _ & Og & Od & _). cbn in Dy, Og, Od.
  split; [exact T|]. split; [exact Ga|]. split.
  - unfold inv_goal in *. cbn [m_decouple upd_sub m_goal m_req m_dim m_attr]. destruct (m_goal m) as [g|]; cbn [option_map]; [|exact Go].
    destruct Og as [_ Og]. intros i Hi. specialize (Go i Hi). destruct (m_req m).
    + destruct Go as [[h ->] Hl]. split; [cbn; eauto|]. apply limit_decouple; [lia|exact Hl].
    + destruct Go as (e & -> & H1 & H2). cbn [sub_decouple]. eexists. split; [reflexivity|]. split; [exact H1|].
      exact (proj2 (limit_decouple (SubE e) i _ ltac:(lia) (conj eq_refl H2))).
  - intros i Hi. change (m_dim (m_decouple m)) with (m_dim m) in Hi. destruct (C i Hi) as (C1 & C2 & C3). unfold settles in *.
    cbn [m_decouple upd_sub m_damping m_spring d_decouple d_damp d_spring d_mass]. rewrite Dy, !par_val_decouple by trivial. split; [|now split].
    destruct (m_damping m) as [s|]; cbn [option_map]; [|exact C1]. destruct Od as [_ Od]. apply limit_decouple; [lia|exact C1].
Qed.
Lemma inv_touched m m' : touched m m' -> inv m -> inv m'.
Proof.
  intros (a & p & g & -> & Hp & Hg) (T & Ga & Go & C). split; [exact T|]. split; [exact Ga|]. split.
  - unfold inv_goal in *. cbn [upd_spring m_goal m_req m_dim m_attr]. destruct (m_goal m) as [g0|]; [|now rewrite Hg].
    destruct Hg as [->|(g' & -> & E)]; [exact Go|]. intros i Hi. specialize (Go i Hi). destruct (m_req m).
    + destruct Go as [[h ->] Hl]. cbn in E. injection E as <-. split; eauto.
    + destruct Go as (e & -> & H1 & H2). cbn in E. destruct (Nat.eqb _ _); [|discriminate]. injection E as <-. eexists. split; [reflexivity|]. now split.
  - intros i Hi. destruct (C i Hi) as (C1 & C2 & C3). unfold settles in *. cbn [upd_spring m_damping m_spring d_damp d_spring d_mass]. split; [|now split].
    destruct (m_damping m); [exact C1|]. destruct Hp as [->|[H _]]; [exact C1|now contradiction H].
Qed.
Lemma inv_change m c m' : sound pf m -> inv m -> forward c -> apply1 pf tf m c = Ok m' -> inv m'.
Proof.
  intros S I F E. destruct c as [t|y|y| |n|v|t|c]; cbn [apply1 forward] in *.
  - now apply (inv_tau m t).
  - now apply (inv_y0 m y).
  - unfold set_yattr in E. destruct (Nat.eqb _ _); [|discriminate]. destruct (goal_attr m y) as [g|] eqn:Eg; [|discriminate]. cbn [bind] in E. injection E as <-.
    now apply inv_attr.
  - injection E as <-. now apply inv_decouple.
  - injection E as <-. now apply (inv_same m).
  - destruct (m_set_params m v) as [m1 [u|]] eqn:Ev; [|discriminate]. cbn [bind] in E. injection E as <-.
    unfold m_set_params in Ev. destruct (dmp_set _ _) as [p [u0|e0]]; [|discriminate]. destruct (mem _ _).
    + destruct (goal_attr _ _) as [g|] eqn:Eg; [|discriminate]. injection Ev as <- _. apply inv_attr; [now apply (inv_same m)|exact Eg].
    + injection Ev as <- _. now apply (inv_same m).
  - unfold m_train in E. destruct (last_res (tj_ts t)) as [tau|] eqn:E0; [|discriminate]. cbn [bind] in E.
    assert (Ht : tau = last (tj_ts t) 0).
    { assert (Hne : tj_ts t <> []) by (intros H; rewrite H, last_res_nil in E0; discriminate). rewrite (last_res_ok _ 0 Hne) in E0. congruence. }
    rewrite <- Ht in F. destruct (set_tau m tau) as [m1|] eqn:E1; [|discriminate]. cbn [bind] in E.
    destruct (nth_res _ _) as [y0|]; [|discriminate]. cbn [bind] in E. destruct (set_y0 m1 y0) as [m2|] eqn:E2; [|discriminate]. cbn [bind] in E.
    destruct (last_res (mrows (tj_ys t))) as [yN|]; [|discriminate]. cbn [bind] in E. unfold set_yattr in E. destruct (Nat.eqb _ _); [|discriminate].
    destruct (goal_attr m2 yN) as [g|] eqn:E3; [|discriminate]. cbn [bind] in E. destruct (get_range_per_dim t) as [am|]; [|discriminate]. cbn [bind] in E.
    assert (I3 : inv (upd_attr m2 yN g)) by (apply inv_attr; [|exact E3]; apply (inv_y0 m1 y0); [|exact E2]; now apply (inv_tau m tau)).
    set (m3 := upd_attr m2 yN g) in *. clearbody m3.
    destruct (match m_fas _ with Some fs => _ | None => _ end) as [m4|] eqn:E4; [|discriminate]. cbn [bind] in E. injection E as <-.
    assert (I4 : inv m4).
    { destruct (m_fas (upd_amps m3 (Some am))) as [fs|].
      - destruct (targets _ _ _) as [pt|]; [|discriminate]. cbn [bind] in E4. destruct (mapM _ _) as [tr|]; [|discriminate]. cbn [bind] in E4.
        injection E4 as <-. now apply (inv_same m3).
      - injection E4 as <-. now apply (inv_same m3). }
    now apply (inv_same m4).
  - assert (Ht : touched m m').
    { destruct c as [x| |ts s]; cbn [reply1] in E.
      - destruct (m_diffeq pf m x) as [[m1 xd]|] eqn:Ed; [|discriminate]. cbn in E. injection E as <-. now apply diffeq_touch in Ed.
      - destruct (m_start pf m None) as [[[m1 x] xd]|] eqn:Ed; [|discriminate]. cbn in E. injection E as <-. now apply start_touch in Ed.
      - destruct (ana pf m ts s) as [r|]; [|discriminate]. cbn in E. injection E as <-. apply touched_refl. }
    now apply (inv_touched m).
Qed.
Lemma inv_history cs : forall m m', sound pf m -> inv m -> allowed pf tf m cs -> Forall forward cs -> apply_all pf tf m cs = Ok m' -> inv m'.
Proof.
  induction cs as [|c cs IH]; intros m m' S I A F E; cbn [apply_all allowed] in *; [now injection E as <-|].
  destruct A as [A1 A2]. destruct (apply1 pf tf m c) as [m1|] eqn:E1; [|discriminate]. cbn [bind] in E. inversion F; subst.
  destruct (change_sound pf tf Pr m c m1 S A1 E1) as (S1 & _). apply (IH m1); trivial. now apply (inv_change m c).
Qed.
End S.

(** new DMPs *)
Section New.
Variable pf : nat -> list (string * pval) -> R -> res R.
Lemma inv_new ty tau y0 attr fas kw m : 0 < tau -> length attr = length y0 -> full_kw (length y0) kw ->
  (forall b, ty <> Sct23 true b) -> new_dmp ty tau y0 attr fas kw = Ok m ->
  let al i := par_val (opt (k_alpha kw) (PScal 20)) i in
  inv al (fun i => al i * al i / 4) (fun _ => 1) m.
Proof.
  intros Ht La (K1 & K2 & K3 & K4 & K5 & K6) Hty E al. unfold new_dmp in E. rewrite K1, K2, K3, K4, K5 in E. cbn [opt] in E.
  set (a := opt (k_alpha kw) (PScal 20)) in *.
  assert (Hal : forall i, par_val a i = al i) by reflexivity. clearbody a al.
  assert (Cst : forall i, (i < length y0)%nat ->
    par_val (d_spring (new_spring tau y0 attr a None (PScal 1))) i = al i * al i / 4 /\ par_val (d_mass (new_spring tau y0 attr a None (PScal 1))) i = 1).
  { intros i Hi. unfold new_spring. cbn [d_spring d_mass par_val]. split; [|reflexivity]. rewrite <- Hal. destruct a as [r|l]; cbn [pmap par_val]; [lra|].
    cbn in K6. rewrite (nth_map_l (fun d => d * d / 4) l i 0) by lia. reflexivity. }
  destruct (default_subs _ _ _ _ _) as [[[[go ga] ph] da]|] eqn:Ed; [|discriminate]. cbn [bind] in E. injection E as <-.
  unfold inv, inv_goal, inv_const, settles. cbn [m_tau m_gating m_goal m_req m_dim m_attr m_damping m_spring].
  split; [exact Ht|]. destruct ty as [| | |ns dp]; cbn [default_subs requires_scaling] in *.
  - injection Ed as <- <- <- <-. split; [cbn; split; [reflexivity|now apply Rdiv_lt_0_compat; lra]|]. split; [reflexivity|]. intros i Hi. split; [exact (Hal i)|now apply Cst].
  - destruct (for_gating_ok tau 0.1 1 Ht ltac:(lra)) as (s & Es & Ei & Et & rate & infl & Er & Eq & Hrate & _). rewrite Es in Ed. cbn [bind] in Ed. injection Ed as <- <- <- <-.
    split; [cbn; split; [reflexivity|rewrite Er; exact Hrate]|]. split.
    + intros i Hi. eexists. split; [reflexivity|]. cbn. split; [reflexivity|]. apply Rdiv_lt_0_compat; lra.
    + intros i Hi. split; [exact (Hal i)|now apply Cst].
  - destruct (for_gating_ok tau 0.1 1 Ht ltac:(lra)) as (s & Es & Ei & Et & rate & infl & Er & Eq & Hrate & _). rewrite Es in Ed. cbn [bind] in Ed. injection Ed as <- <- <- <-.
    split; [cbn; split; [reflexivity|rewrite Er; exact Hrate]|]. split.
    + intros i Hi. eexists. split; [reflexivity|]. cbn. split; [reflexivity|]. apply Rdiv_lt_0_compat; lra.
    + intros i Hi. split; [exact (Hal i)|now apply Cst].
  - destruct ns; [now contradiction (Hty dp)|]. destruct (if dp then _ else _) as [da'|] eqn:Eda; [|discriminate]. cbn [bind] in Ed. injection Ed as <- <- <- <-.
    split; [cbn; split; [reflexivity|apply Rdiv_lt_0_compat; lra]|]. split.
    + intros i Hi. cbn [negb]. split; [eauto|]. cbn. rewrite nth_repeat_lt by trivial. split; [reflexivity|]. apply Rdiv_lt_0_compat; lra.
    + intros i Hi. split; [|now apply Cst]. destruct dp; [|injection Eda as <-; exact (Hal i)].
      change (d_damp (new_spring tau y0 attr a None (PScal 1))) with a in *.
      destruct (full (length y0) a) as [fin|] eqn:Ef; [|discriminate]. cbn [bind] in Eda. injection Eda as <-. cbn. split; [|apply Rdiv_lt_0_compat; lra].
      rewrite <- Hal. destruct a as [r|l]; cbn in Ef.
      * injection Ef as <-. cbn. now apply nth_repeat_lt.
      * cbn in K6. unfold fit in Ef. rewrite K6, Nat.eqb_refl in Ef. injection Ef as <-. reflexivity.
Qed.
End New.

(** every new DMP with scalable goal converges after every history *)
Lemma history_converge pf tf ty tau y0 attr fas kw m cs m' sup i dmin dmax Bf eps : predicts pf tf ->
  0 < tau -> length attr = length y0 -> full_kw (length y0) kw -> (forall b, ty <> Sct23 true b) ->
  new_dmp ty tau y0 attr fas kw = Ok m -> sound pf m -> allowed pf tf m cs -> Forall forward cs -> apply_all pf tf m cs = Ok m' ->
  ready m' -> (i < length y0)%nat -> 0 < par_val (opt (k_alpha kw) (PScal 20)) i ->
  0 < dmin -> dmax * par_val (opt (k_alpha kw) (PScal 20)) i < 4 * m_tau m' ->
  (sup = true \/ forall ph, Rabs (pred_val pf m' ph i) <= Bf) -> 0 < eps ->
  exists N, forall ts r, steps dmin dmax ts -> ana pf m' ts sup = Ok r ->
    forall k, (N <= k)%nat -> (k < length ts)%nat -> Rabs (yv (a_xs r) k i - nth i (m_attr m') 0) < eps.
Proof.
  intros Pr Ht La Kw Hty En S A F E R Hi Hal Hmin Hmax Hf He.
  pose proof (inv_new ty tau y0 attr fas kw m Ht La Kw Hty En) as I. cbv zeta in I.
  pose proof (inv_history pf tf Pr _ _ _ cs m m' S I A F E) as I'.
  destruct (history_sound pf tf Pr cs m m' S A E) as (S' & D' & _).
  assert (Dm : m_dim m = length y0).
  { unfold new_dmp in En. destruct (default_subs _ _ _ _ _) as [[[[go ga] ph] da]|]; [|discriminate]. cbn [bind] in En. injection En as <-. reflexivity. }
  assert (Hi' : (i < m_dim m')%nat) by (rewrite D', Dm; exact Hi).
  pose proof (inv_follows _ _ _ _ I') as Fo. destruct I' as (T & Ga & _ & C). destruct (C i Hi') as (C1 & C2 & C3).
  assert (Hp : 0 < / m_tau m') by now apply Rinv_0_lt_compat.
  set (al := par_val (opt (k_alpha kw) (PScal 20)) i) in *.
  refine (converge pf m' sup (sound_wf pf m' S' R) Fo i Hi' al C1 dmin dmax Hmin _ Bf _ eps He).
  - unfold critical. cbv zeta. rewrite C2, C3. split; [field|]. rewrite Rmult_1_l. split; [now apply Rdiv_lt_0_compat|].
    replace (dmax * (al / m_tau m')) with (dmax * al / m_tau m') by (field; lra). apply Rmult_lt_reg_r with (m_tau m'); [exact T|].
    replace (dmax * al / m_tau m' * m_tau m') with (dmax * al) by (field; lra). exact Hmax.
  - destruct Hf as [->|Hf]; [now left|right; now split].
Qed.
