(** Step-by-step executions reach the goal: DMPs. *)
From Coq Require Import String Lia Lra.
From Verif Require Import Base BaseLemmas DynModel DynSpec DynProofs DynProofs2 ParamModel TrajModel DmpModel DmpSpec DmpSpec2 DmpProofs5 DmpProofs14 DmpProofs16 DmpProofs19 IntModel PushSpec PushProofs PushProofs2 ReachSpec ReachProofs.
Open Scope R_scope.

Lemma vop_nth n f c x k y : (forall r, f r = c * r) -> length x = n -> length k = n -> vop Rplus x (map f k) = Ok y -> length y = n /\ forall j, nth j y 0 = nth j x 0 + c * nth j k 0.
Proof.
  intros Hf Lx Lk E. rewrite vop_same in E by (rewrite map_length; congruence). apply (f_equal (fun r => match r with Ok l => l | Err _ => y end)) in E. subst y.
  assert (L : length (map2 Rplus x (map f k)) = n) by (rewrite map2_length, map_length; lia). split; [exact L|].
  intros j. destruct (Nat.ltb_spec j n) as [H|H].
  - rewrite (nth_map2 Rplus x (map f k) j 0 0 0) by (try rewrite map_length; lia). rewrite (nth_indep (map f k) 0 (f 0)) by (rewrite map_length; lia). rewrite map_nth, Hf. reflexivity.
  - rewrite (nth_overflow (map2 _ _ _)) by lia. rewrite !nth_overflow by lia. ring.
Qed.

Section Reach.
Variable pf : nat -> list (string * pval) -> R -> res R.
Variable m : dmp.
Variable i : nat.
Variables a dt : R.
Variable me : int_method.
Hypothesis W : wf pf m.
Hypothesis Hi : (i < m_dim m)%nat.
Hypothesis Cr : critically m i a.
Hypothesis Pm : plain m.
Hypothesis Ht : 0 < m_tau m.
Hypothesis Hd : 0 < dt.
Hypothesis Hu : 0 < a * (dt / m_tau m) < 2.
Variable F : R.
Variable B : R.
Hypothesis HF : forall ph, Rabs ph <= B -> Rabs (pred_val pf m ph i) <= F.
(** the phase *)
Variable fp : R -> R.
Hypothesis Hfp : forall p, sub_diffeq (m_phase m) [p] = Ok [fp p].
Hypothesis Cp : stays fp dt B me.
(** the gating *)
Variable fg : R -> R.
Variable P : R -> Prop.
Variable qg : R.
Hypothesis Hfg : forall g, sub_diffeq (m_gating m) [g] = Ok [fg g].
Hypothesis Cg : calm fg dt P qg me.
(** the goal *)
Variables c qe : R.
Notation n := (m_dim m).
Notation at_i := (nth i (m_attr m) 0).
Definition gap (x : list R) : R := goal_now m x i - at_i.
Hypothesis Hgoal : m_goal m = None \/ exists e, m_goal m = Some (SubE e) /\ m_req m = false /\ par_val (e_alpha e) i / e_tau e = c.
Hypothesis Ce : calm (fun g => - c * g) dt (fun _ => True) qe me.
Hypothesis Hqe : 0 <= qe.

Notation ga x := (nth (3 * n + 1) x 0).
Notation ph x := (nth (3 * n) x 0).
Notation Yx x := (nth i x 0 - at_i).
Notation Zx x := (nth (n + i) x 0).
Definition fo (x : list R) : R := a * a * gap x + forcing_now pf m x i.
Definition gr (x : list R) : R := match m_goal m with None => 0 | Some _ => nth (2 * n + i) x 0 - at_i end.
Lemma gap_gr x : gap x = gr x.
Proof.
  unfold gap, gr, goal_now. destruct Hgoal as [->|(e & -> & R & _)]; [ring|]. unfold target. now rewrite R.
Qed.

Lemma rates m1 x : touched m m1 -> length x = dim_x m -> exists m2 xd, m_diffeq pf m1 x = Ok (m2, xd) /\ touched m m2 /\ length xd = dim_x m /\
  nth i xd 0 = / m_tau m * Zx x /\ nth (n + i) xd 0 = / m_tau m * (- (a * a) * Yx x - 2 * a * Zx x + fo x) /\
  ga xd = fg (ga x) /\ ph xd = fp (ph x) /\ (m_goal m <> None -> nth (2 * n + i) xd 0 = - c * gr x).
Proof.
  intros T L. destruct (diffeq_plain pf m m1 x W Pm T L) as (m2 & xd & E & T2 & Ld). exists m2, xd. split; [exact E|]. split; [exact T2|]. split; [exact Ld|].
  rewrite (touch_diffeq pf m m1 x T) in E.
  destruct (proj1 (equation_iff pf m W x xd L) (ex_intro _ _ E)) as (_ & gd & pd & ad & cd & (Sg & Sp & Sa & _) & Ep & Ea & He).
  destruct (He i Hi) as (H1 & H2 & H3 & _). destruct Cr as (C1 & C2 & C3). set (M := par_val (d_mass (m_spring m)) i) in *. assert (HM : M <> 0) by now apply W.
  split; [rewrite <- H1; field; lra|]. split.
  - assert (Ed : damping_now m x i = 2 * M * a) by (unfold damping_now; now rewrite C1). rewrite Ed, C3 in H2. unfold fo, gap.
    apply (Rmult_eq_reg_l (m_tau m)); [|lra]. rewrite H2. field. split; [lra|exact HM].
  - split; [rewrite Ea; rewrite Hfg in Sa; now injection Sa|]. split; [rewrite Ep; rewrite Hfp in Sp; now injection Sp|]. intros G. destruct Hgoal as [Hn|(e & Eg & Rq & Hc)]; [contradiction|].
    rewrite H3. unfold gr. rewrite Eg in Sg |- *. destruct Sg as (g1 & Es & Ed). cbn [sub_set_attr] in Es.
    destruct (Nat.eqb_spec (length (m_attr m)) (length (e_init e))) as [La|]; [|discriminate]. apply (f_equal (fun r => match r with Ok q => q | Err _ => SubE e end)) in Es. subst g1.
    assert (O : opt_ok n (m_goal m)) by apply W. rewrite Eg in O. destruct O as ((O1 & O2 & O3) & O4). unfold sub_dim in O4. cbn [sub_init] in O4. cbn [sub_tau] in O1.
    cbn [sub_diffeq] in Ed. rewrite e_diffeq_ok in Ed; cbn [e_tau e_attr e_init e_alpha] in *; trivial; [|unfold part; rewrite map_length, seq_length; congruence].
    apply (f_equal (fun r => match r with Ok q => q | Err _ => gd end)) in Ed. subst gd. rewrite nth_map_seq by lia. unfold part. rewrite nth_map_seq by lia. rewrite <- Hc. field. exact O1.
Qed.
Lemma fo_small x phi psi : Rabs (ph x) <= B -> Rabs (gr x) <= phi -> Rabs (ga x) <= psi -> Rabs (fo x) <= a * a * phi + F * Rabs (factor m i) * psi.
Proof.
  intros H0 H1 H2. unfold fo. rewrite gap_gr. eapply Rle_trans; [apply Rabs_triang|]. apply Rplus_le_compat.
  - rewrite Rabs_mult, (Rabs_pos_eq (a * a)) by apply Rle_0_sqr. apply Rmult_le_compat_l; [apply Rle_0_sqr|exact H1].
  - unfold forcing_now. rewrite !Rabs_mult. pose proof (HF (nth (3 * n) x 0) H0) as HP. pose proof (Rabs_pos (factor m i)). pose proof (Rabs_pos (ga x)). pose proof (Rabs_pos (pred_val pf m (nth (3 * n) x 0) i)).
    rewrite Rmult_assoc, (Rmult_comm (Rabs (ga x))), <- Rmult_assoc. apply Rmult_le_compat; trivial; [now apply Rmult_le_pos|]. apply Rmult_le_compat_r; trivial.
Qed.

Lemma one_step m1 x : touched m m1 -> length x = dim_x m -> P (ga x) -> Rabs (ph x) <= B -> let h := dt / m_tau m in let phi := a * a * Rabs (gr x) + F * Rabs (factor m i) * Rabs (ga x) in
  exists m2 y xd, m_step pf me m1 dt x = Ok (m2, y, xd) /\ touched m m2 /\ length y = dim_x m /\ P (ga y) /\ Rabs (ph y) <= B /\
    Rabs (ga y) <= qg * Rabs (ga x) /\ Rabs (gr y) <= qe * Rabs (gr x) /\
    Rabs (Zx y + a * Yx y - decay me (a * h) * (Zx x + a * Yx x)) <= 8 * h * (1 + h) * phi /\
    Rabs (Yx y - decay me (a * h) * Yx x - h * gain me (a * h) * (Zx x + a * Yx x)) <= 8 * h * (1 + h) * phi.
Proof.
  intros T L HP HB h phi. assert (Hh : 0 < h) by (apply Rdiv_lt_0_compat; lra). destruct (Cp (ph x) HB) as (U2 & U3 & U4 & Un). destruct (Cg (ga x) HP) as (G2 & G3 & G4 & Gn & HP').
  destruct (Ce (gr x) I) as (D2 & D3 & D4 & Dn & _).
  assert (Gr : forall y k s, (forall j, nth j y 0 = nth j x 0 + s * nth j k 0) -> gr y = gr x + s * match m_goal m with None => 0 | Some _ => nth (2 * n + i) k 0 end)
    by (intros y k s Hy; unfold gr; destruct (m_goal m); [rewrite Hy; ring|ring]).
  assert (Gk : forall k z, (m_goal m <> None -> nth (2 * n + i) k 0 = - c * gr z) -> match m_goal m with None => 0 | Some _ => nth (2 * n + i) k 0 end = - c * gr z)
    by (intros k z Hk; unfold gr in *; destruct (m_goal m); [now apply Hk|ring]).
  pose proof (proj1 (touched_dim m m1 T)) as Dx.
  assert (F1 : Rabs (fo x) <= phi) by (apply fo_small; [exact HB|apply Rle_refl|apply Rle_refl]).
  unfold m_step, m_step_rk, m_step_euler. destruct me; rewrite Dx, L, Nat.eqb_refl.
  - destruct (rates m1 x T L) as (m2 & k1 & -> & T2 & L1 & A1 & B1 & C1 & X1 & E1). cbn [bind]. apply Gk in E1.
    destruct (vop_total _ (Rmult (dt * 0.5)) x k1 L L1) as (i2 & V2 & L2). rewrite V2. cbn [bind]. destruct (vop_nth _ _ (dt * 0.5) _ _ _ (fun r => eq_refl) L L1 V2) as [_ N2].
    assert (GA2 : ga i2 = st2 fg dt (ga x)) by (rewrite N2, C1; reflexivity). assert (PH2 : ph i2 = st2 fp dt (ph x)) by (rewrite N2, X1; reflexivity). assert (GR2 : gr i2 = st2 (fun g => - c * g) dt (gr x)) by (rewrite (Gr _ _ _ N2), E1; reflexivity).
    destruct (rates m2 i2 T2 L2) as (m3 & k2 & -> & T3 & L3 & A2 & B2 & C2 & X2 & E2). cbn [bind]. apply Gk in E2.
    destruct (vop_total _ (Rmult (dt * 0.5)) x k2 L L3) as (i3 & V3 & L4). rewrite V3. cbn [bind]. destruct (vop_nth _ _ (dt * 0.5) _ _ _ (fun r => eq_refl) L L3 V3) as [_ N3].
    assert (GA3 : ga i3 = st3 fg dt (ga x)) by (rewrite N3, C2, GA2; reflexivity). assert (PH3 : ph i3 = st3 fp dt (ph x)) by (rewrite N3, X2, PH2; reflexivity). assert (GR3 : gr i3 = st3 (fun g => - c * g) dt (gr x)) by (rewrite (Gr _ _ _ N3), E2, GR2; reflexivity).
    destruct (rates m3 i3 T3 L4) as (m4 & k3 & -> & T4 & L5 & A3 & B3 & C3 & X3 & E3). cbn [bind]. apply Gk in E3.
    destruct (vop_total _ (Rmult dt) x k3 L L5) as (i4 & V4 & L6). rewrite V4. cbn [bind]. destruct (vop_nth _ _ dt _ _ _ (fun r => eq_refl) L L5 V4) as [_ N4].
    assert (GA4 : ga i4 = st4 fg dt (ga x)) by (rewrite N4, C3, GA3; reflexivity). assert (PH4 : ph i4 = st4 fp dt (ph x)) by (rewrite N4, X3, PH3; reflexivity). assert (GR4 : gr i4 = st4 (fun g => - c * g) dt (gr x)) by (rewrite (Gr _ _ _ N4), E3, GR3; reflexivity).
    destruct (rates m4 i4 T4 L6) as (m5 & k4 & -> & T5 & L7 & A4 & B4 & C4 & X4 & E4). cbn [bind]. apply Gk in E4.
    destruct (vop_total _ (fun r => r) k2 k3 L3 L5) as (s23 & V5 & L8). destruct (vop_nth _ _ 1 _ _ _ (fun r => eq_sym (Rmult_1_l r)) L3 L5 V5) as [_ N5]. rewrite map_id in V5. rewrite V5. cbn [bind].
    destruct (vop_total _ (Rmult 2) k1 s23 L1 L8) as (s123 & V6 & L9). destruct (vop_nth _ _ 2 _ _ _ (fun r => eq_refl) L1 L8 V6) as [_ N6]. rewrite V6. cbn [bind].
    destruct (vop_total _ (fun r => r) s123 k4 L9 L7) as (s & V7 & L10). destruct (vop_nth _ _ 1 _ _ _ (fun r => eq_sym (Rmult_1_l r)) L9 L7 V7) as [_ N7]. rewrite map_id in V7. rewrite V7. cbn [bind].
    destruct (vop_total _ (fun v => dt * v / 6) x s L L10) as (y & V8 & L11). destruct (vop_nth _ (fun v => dt * v / 6) (dt / 6) x s y ltac:(intros r; cbv beta; field) L L10 V8) as [_ N8]. rewrite V8. cbn [bind].
    destruct (diffeq_plain pf m m5 y W Pm T5 L11) as (m6 & xd & -> & T6 & _). cbn [bind]. exists m6, y, xd. split; [reflexivity|]. split; [exact T6|]. split; [exact L11|].
    assert (Ny : forall j, nth j y 0 = nth j x 0 + dt / 6 * (nth j k1 0 + 2 * (nth j k2 0 + nth j k3 0) + nth j k4 0)) by (intros j; rewrite N8, N7, N6, N5; ring).
    assert (GAy : ga y = nxt fg dt RungeKutta (ga x)) by (rewrite Ny, C1, C2, C3, C4, GA2, GA3, GA4; reflexivity).
    assert (PHy : ph y = nxt fp dt RungeKutta (ph x)) by (rewrite Ny, X1, X2, X3, X4, PH2, PH3, PH4; reflexivity).
    assert (GRy : gr y = nxt (fun g => - c * g) dt RungeKutta (gr x)).
    { cbn [nxt]. rewrite <- GR2, <- GR3, <- GR4, <- E1, <- E2, <- E3, <- E4. unfold gr. destruct (m_goal m); [rewrite Ny; ring|ring]. }
    split; [rewrite GAy; exact HP'|]. split; [rewrite PHy; exact Un|]. split; [rewrite GAy; exact Gn|]. split; [rewrite GRy; exact Dn|].
    assert (F2 : Rabs (fo i2) <= phi) by (apply fo_small; [rewrite PH2; exact U2|rewrite GR2; exact D2|rewrite GA2; exact G2]).
    assert (F3 : Rabs (fo i3) <= phi) by (apply fo_small; [rewrite PH3; exact U3|rewrite GR3; exact D3|rewrite GA3; exact G3]).
    assert (F4 : Rabs (fo i4) <= phi) by (apply fo_small; [rewrite PH4; exact U4|rewrite GR4; exact D4|rewrite GA4; exact G4]).
    pose proof (spring_rk a h (Yx x) (Zx x) (fo x) (fo i2) (fo i3) (fo i4) phi Hu Hh F1 F2 F3 F4) as Sp. cbv beta zeta in Sp.
    assert (Eh : forall r, dt * (/ m_tau m * r) = h * r) by (intros r; unfold h, Rdiv; ring).
    assert (Y2 : Yx i2 = Yx x + h * Zx x / 2) by (rewrite N2, A1; rewrite <- Eh; lra).
    assert (Z2 : Zx i2 = Zx x + h * (- (a * a) * Yx x - 2 * a * Zx x + fo x) / 2) by (rewrite N2, B1; rewrite <- Eh; lra).
    assert (Y3 : Yx i3 = Yx x + h * Zx i2 / 2) by (rewrite N3, A2; rewrite <- Eh; lra).
    assert (Z3 : Zx i3 = Zx x + h * (- (a * a) * Yx i2 - 2 * a * Zx i2 + fo i2) / 2) by (rewrite N3, B2; rewrite <- Eh; lra).
    assert (Y4 : Yx i4 = Yx x + h * Zx i3) by (rewrite N4, A3; rewrite <- Eh; lra).
    assert (Z4 : Zx i4 = Zx x + h * (- (a * a) * Yx i3 - 2 * a * Zx i3 + fo i3)) by (rewrite N4, B3; rewrite <- Eh; lra).
    assert (Y5 : Yx y = Yx x + (h * Zx x + 2 * (h * Zx i2 + h * Zx i3) + h * Zx i4) / 6) by (rewrite Ny, A1, A2, A3, A4; rewrite <- !Eh; field; lra).
    assert (Z5 : Zx y = Zx x + (h * (- (a * a) * Yx x - 2 * a * Zx x + fo x) + 2 * (h * (- (a * a) * Yx i2 - 2 * a * Zx i2 + fo i2) + h * (- (a * a) * Yx i3 - 2 * a * Zx i3 + fo i3)) + h * (- (a * a) * Yx i4 - 2 * a * Zx i4 + fo i4)) / 6)
      by (rewrite Ny, B1, B2, B3, B4; rewrite <- !Eh; field; lra).
    rewrite <- Y2, <- Z2 in Sp. rewrite <- Y3, <- Z3 in Sp. rewrite <- Y4, <- Z4 in Sp. rewrite <- Y5, <- Z5 in Sp. exact Sp.
  - destruct (rates m1 x T L) as (m2 & k1 & -> & T2 & L1 & A1 & B1 & C1 & X1 & E1). cbn [bind]. apply Gk in E1.
    destruct (vop_total _ (Rmult dt) x k1 L L1) as (y & V2 & L2). rewrite V2. cbn [bind]. destruct (vop_nth _ _ dt _ _ _ (fun r => eq_refl) L L1 V2) as [_ N2].
    exists m2, y, k1. split; [reflexivity|]. split; [exact T2|]. split; [exact L2|].
    assert (GAy : ga y = nxt fg dt Euler (ga x)) by (rewrite N2, C1; reflexivity).
    assert (PHy : ph y = nxt fp dt Euler (ph x)) by (rewrite N2, X1; reflexivity).
    assert (GRy : gr y = nxt (fun g => - c * g) dt Euler (gr x)) by (rewrite (Gr _ _ _ N2), E1; reflexivity).
    split; [rewrite GAy; exact HP'|]. split; [rewrite PHy; exact Un|]. split; [rewrite GAy; exact Gn|]. split; [rewrite GRy; exact Dn|].
    pose proof (spring_euler a h (Yx x) (Zx x) (fo x) phi Hh F1) as Sp. cbv beta zeta in Sp.
    assert (Eh : forall r, dt * (/ m_tau m * r) = h * r) by (intros r; unfold h, Rdiv; ring).
    assert (Y2 : Yx y = Yx x + h * Zx x) by (rewrite N2, A1; rewrite <- Eh; lra).
    assert (Z2 : Zx y = Zx x + h * (- (a * a) * Yx x - 2 * a * Zx x + fo x)) by (rewrite N2, B1; rewrite <- Eh; lra).
    rewrite <- Y2, <- Z2 in Sp. exact Sp.
Qed.

(** ** all steps *)
Hypothesis Hqg : 0 <= qg < 1.
Hypothesis Hqe1 : qe < 1.
Lemma steps_snoc k : forall m1 x, steps pf me m1 dt x (S k) = let* p := steps pf me m1 dt x k in let* r := m_step pf me (fst p) dt (snd p) in Ok (fst r).
Proof.
  induction k as [|k IH]; intros m1 x.
  - cbn [steps bind fst snd]. destruct (m_step pf me m1 dt x) as [[[m2 y] xd]|]; reflexivity.
  - change (steps pf me m1 dt x (S (S k))) with (let* p := m_step pf me m1 dt x in steps pf me (fst (fst p)) dt (snd (fst p)) (S k)).
    change (steps pf me m1 dt x (S k)) with (let* p := m_step pf me m1 dt x in steps pf me (fst (fst p)) dt (snd (fst p)) k).
    destruct (m_step pf me m1 dt x) as [p|]; [|reflexivity]. cbn [bind]. apply IH.
Qed.
Definition state (m1 : dmp) (x : list R) (k : nat) : list R := match steps pf me m1 dt x k with Ok (_, y) => y | Err _ => [] end.
Lemma all_steps m1 x : touched m m1 -> length x = dim_x m -> P (ga x) -> Rabs (ph x) <= B -> forall k,
  (exists m2, steps pf me m1 dt x k = Ok (m2, state m1 x k) /\ touched m m2) /\ length (state m1 x k) = dim_x m /\ P (ga (state m1 x k)) /\ Rabs (ph (state m1 x k)) <= B.
Proof.
  intros T L HP HB k. induction k as [|k ((m2 & E & T2) & Lk & Pk & Bk)].
  - split; [exists m1; split; [reflexivity|exact T]|]. now split.
  - destruct (one_step m2 (state m1 x k) T2 Lk Pk Bk) as (m3 & y & xd & Es & T3 & Ly & Py & By & _).
    assert (E' : steps pf me m1 dt x (S k) = Ok (m3, y)) by (rewrite steps_snoc, E; cbn [bind fst snd]; rewrite Es; reflexivity).
    assert (Ey : state m1 x (S k) = y) by (unfold state; now rewrite E'). rewrite Ey. split; [exists m3; now split|]. now split.
Qed.
Lemma next_state m1 x k : touched m m1 -> length x = dim_x m -> P (ga x) -> Rabs (ph x) <= B -> let h := dt / m_tau m in let s := state m1 x k in let y := state m1 x (S k) in
  let phi := a * a * Rabs (gr s) + F * Rabs (factor m i) * Rabs (ga s) in
    Rabs (ga y) <= qg * Rabs (ga s) /\ Rabs (gr y) <= qe * Rabs (gr s) /\
    Rabs (Zx y + a * Yx y - decay me (a * h) * (Zx s + a * Yx s)) <= 8 * h * (1 + h) * phi /\
    Rabs (Yx y - decay me (a * h) * Yx s - h * gain me (a * h) * (Zx s + a * Yx s)) <= 8 * h * (1 + h) * phi.
Proof.
  intros T L HP HB h s y phi. destruct (all_steps m1 x T L HP HB k) as ((m2 & E & T2) & Lk & Pk & Bk).
  destruct (one_step m2 (state m1 x k) T2 Lk Pk Bk) as (m3 & y' & xd & Es & T3 & Ly & Py & By & H).
  assert (Ey : y = y') by (unfold y, state at 1; rewrite steps_snoc, E; cbn [bind fst snd]; rewrite Es; reflexivity). rewrite Ey. exact H.
Qed.
Lemma geometric_out (u : nat -> R) q : 0 <= q < 1 -> (forall k, 0 <= u k) -> (forall k, u (S k) <= q * u k) -> fades_out u /\ forall k, u k <= u 0%nat.
Proof.
  intros Hq H0 Hs. split.
  - apply (contract u (fun _ => 0) q 0 Hq); [intros k; specialize (Hs k); lra|intros; lra|]. intros eps He. exists 0%nat. intros; lra.
  - induction k as [|k IH]; [lra|]. specialize (Hs k). assert (q * u k <= 1 * u k) by (apply Rmult_le_compat_r; [apply H0|lra]). lra.
Qed.
Lemma reaches_goal m1 x : touched m m1 -> length x = dim_x m -> P (ga x) -> Rabs (ph x) <= B -> reaches pf me m1 dt x i at_i.
Proof.
  intros T L HP HB. set (h := dt / m_tau m). assert (Hh : 0 < h) by (apply Rdiv_lt_0_compat; lra).
  set (s := state m1 x). set (C := 8 * h * (1 + h)). set (A := a * a). set (BB := F * Rabs (factor m i)).
  assert (HF0 : 0 <= F) by (pose proof (HF (ph x) HB); pose proof (Rabs_pos (pred_val pf m (ph x) i)); lra).
  assert (HC : 0 <= C) by (unfold C; apply Rmult_le_pos; lra). assert (HA : 0 <= A) by apply Rle_0_sqr. assert (HBB : 0 <= BB) by (apply Rmult_le_pos; [exact HF0|apply Rabs_pos]).
  set (gs k := Rabs (ga (s k))). set (es k := Rabs (gr (s k))). set (phi k := C * A * es k + C * BB * gs k).
  set (w k := Zx (s k) + a * Yx (s k)). set (r := decay me (a * h)).
  assert (Hr : 0 <= Rabs r < 1) by (split; [apply Rabs_pos|exact (decay_small me (a * h) Hu)]).
  assert (N : forall k, gs (S k) <= qg * gs k /\ es (S k) <= qe * es k /\ Rabs (w (S k) - r * w k) <= phi k /\ Rabs (Yx (s (S k)) - r * Yx (s k) - h * gain me (a * h) * w k) <= phi k).
  { intros k. destruct (next_state m1 x k T L HP HB) as (N1 & N2 & N3 & N4). fold h in N3, N4. split; [exact N1|]. split; [exact N2|].
    assert (Ep : 8 * h * (1 + h) * (a * a * Rabs (gr (state m1 x k)) + F * Rabs (factor m i) * Rabs (nth (3 * n + 1) (state m1 x k) 0)) = phi k) by (unfold phi, C, A, BB, es, gs, s; ring).
    rewrite Ep in N3, N4. split; [exact N3|exact N4]. }
  destruct (geometric_out gs qg Hqg ltac:(intros; apply Rabs_pos) ltac:(intros k; apply N)) as [G1 G2].
  destruct (geometric_out es qe (conj Hqe Hqe1) ltac:(intros; apply Rabs_pos) ltac:(intros k; apply N)) as [E1 E2].
  assert (Pf : fades_out phi) by (apply fades_lin; trivial; now apply Rmult_le_pos).
  assert (Pb : forall k, phi k <= phi 0%nat) by (intros k; unfold phi; apply Rplus_le_compat; apply Rmult_le_compat_l; trivial; now apply Rmult_le_pos).
  assert (Wf : fades_out (fun k => Rabs (w k))).
  { apply (contract _ phi (Rabs r) (phi 0%nat) Hr); trivial. intros k. destruct (N k) as (_ & _ & N3 & _).
    replace (w (S k)) with (r * w k + (w (S k) - r * w k)) by ring. eapply Rle_trans; [apply Rabs_triang|]. rewrite Rabs_mult. lra. }
  assert (Wb : exists U, forall k, Rabs (w k) <= U).
  { set (U := Rabs (w 0%nat) + phi 0%nat / (1 - Rabs r)). exists U. assert (P0 : 0 <= phi 0%nat) by (eapply Rle_trans; [|apply (N 0%nat)]; apply Rabs_pos).
    assert (D : 0 <= phi 0%nat / (1 - Rabs r)) by (apply Rmult_le_pos; [exact P0|left; apply Rinv_0_lt_compat; lra]).
    assert (Eu : phi 0%nat = (1 - Rabs r) * (phi 0%nat / (1 - Rabs r))) by (field; lra).
    induction k as [|k IH]; [unfold U; lra|]. destruct (N k) as (_ & _ & N3 & _). specialize (Pb k).
    replace (w (S k)) with (r * w k + (w (S k) - r * w k)) by ring. eapply Rle_trans; [apply Rabs_triang|]. rewrite Rabs_mult.
    assert (Q1 : Rabs r * Rabs (w k) <= Rabs r * U) by (apply Rmult_le_compat_l; lra).
    assert (Q2 : Rabs r * Rabs (w 0%nat) <= 1 * Rabs (w 0%nat)) by (apply Rmult_le_compat_r; [apply Rabs_pos|lra]).
    assert (Q3 : Rabs r * U = Rabs r * Rabs (w 0%nat) + Rabs r * (phi 0%nat / (1 - Rabs r))) by (unfold U; ring).
    assert (Q4 : U = Rabs (w 0%nat) + phi 0%nat / (1 - Rabs r)) by reflexivity.
    assert (Q5 : (1 - Rabs r) * (phi 0%nat / (1 - Rabs r)) = phi 0%nat / (1 - Rabs r) - Rabs r * (phi 0%nat / (1 - Rabs r))) by ring. lra. }
  destruct Wb as [U Wb]. set (G := Rabs (h * gain me (a * h))).
  assert (Yf : fades_out (fun k => Rabs (Yx (s k)))).
  { apply (contract _ (fun k => G * Rabs (w k) + 1 * phi k) (Rabs r) (G * U + 1 * phi 0%nat) Hr).
    - intros k. destruct (N k) as (_ & _ & _ & N4).
      replace (Yx (s (S k))) with (r * Yx (s k) + h * gain me (a * h) * w k + (Yx (s (S k)) - r * Yx (s k) - h * gain me (a * h) * w k)) by ring.
      eapply Rle_trans; [apply Rabs_triang|]. pose proof (Rabs_triang (r * Yx (s k)) (h * gain me (a * h) * w k)) as Tr. rewrite !Rabs_mult in Tr. unfold G. rewrite !Rabs_mult. lra.
    - intros k. apply Rplus_le_compat; [apply Rmult_le_compat_l; [apply Rabs_pos|apply Wb]|specialize (Pb k); lra].
    - apply fades_lin; trivial; [apply Rabs_pos|lra]. }
  intros eps He. set (e := eps / (2 * (1 + Rabs a))). assert (Ha : 0 <= Rabs a) by apply Rabs_pos. assert (Hee : 0 < e) by (apply Rdiv_lt_0_compat; lra).
  assert (Ee : e * (1 + Rabs a) = eps / 2) by (unfold e; field; lra).
  destruct (Yf e Hee) as [K1 H1]. destruct (Wf e Hee) as [K2 H2]. destruct (G1 eps He) as [K3 H3].
  exists (Nat.max K1 (Nat.max K2 K3)). intros k Hk. destruct (all_steps m1 x T L HP HB k) as ((m2 & E & T2) & Lk & _). exists m2, (s k). split; [exact E|].
  specialize (H1 k ltac:(lia)). specialize (H2 k ltac:(lia)). specialize (H3 k ltac:(lia)). cbv beta in H1, H2.
  destruct (touched_dim m m1 T) as (_ & Dm & _). rewrite Dm.
  assert (Q0 : Rabs a * Rabs (Yx (s k)) <= Rabs a * e) by (apply Rmult_le_compat_l; lra).
  assert (Q1 : 0 <= Rabs a * e) by (apply Rmult_le_pos; lra).
  assert (Q2 : e * (1 + Rabs a) = e + Rabs a * e) by ring.
  split; [lra|]. split; [|unfold gs in H3; lra].
  replace (Zx (s k)) with (w k + - (a * Yx (s k))) by (unfold w; ring). eapply Rle_trans; [apply Rabs_triang|]. rewrite Rabs_Ropp, Rabs_mult. lra.
Qed.
End Reach.

(** ** from the specification *)
Lemma reached_goal pf me m1 m dt x i a : wf pf m -> (i < m_dim m)%nat -> critically m i a -> phase_stays (m_phase m) dt -> 0 < m_tau m -> 0 < dt -> 0 < a * dt / m_tau m < 2 ->
  bounded_force pf m i -> fades (m_gating m) dt (nth (3 * m_dim m + 1) x 0) -> leads m i dt -> length x = dim_x m -> touched m m1 ->
  reaches pf me m1 dt x i (nth i (m_attr m) 0) /\
  forall k, exists m2 y, steps pf me m1 dt x k = Ok (m2, y) /\ touched m m2 /\ length y = dim_x m /\ fades (m_gating m) dt (nth (3 * m_dim m + 1) y 0).
Proof.
  intros W Hi Cr Ad Ht Hd Hu BF Fa Le L T. replace (a * dt / m_tau m) with (a * (dt / m_tau m)) in Hu by (unfold Rdiv; ring).
  assert (Pm : plain m).
  { unfold plain, tags. cbn [fst snd]. unfold phase_stays, fades, leads in *. split; [destruct (m_phase m); trivial; contradiction|]. split; [destruct (m_gating m); trivial; contradiction|].
    split; [destruct (m_goal m) as [[| | |]|]; cbn; trivial; try discriminate; contradiction|]. now rewrite (proj1 Cr). }
  assert (Goal : exists c qe, (m_goal m = None \/ exists e, m_goal m = Some (SubE e) /\ m_req m = false /\ par_val (e_alpha e) i / e_tau e = c) /\
     calm (fun g => - c * g) dt (fun _ => True) qe me /\ 0 <= qe < 1).
  { assert (Cc : forall c, 0 < c * dt < 2 -> calm (fun g => - c * g) dt (fun _ => True) (Rabs (decay me (c * dt))) me /\ 0 <= Rabs (decay me (c * dt)) < 1).
    { intros c Hc. split; [now apply calm_linear|]. split; [apply Rabs_pos|now apply decay_small]. }
    unfold leads in Le. destruct (m_goal m) as [g|].
    - destruct g as [e| | |]; try contradiction. destruct Le as [Rq Hc]. exists (par_val (e_alpha e) i / e_tau e). eexists. split; [right; now exists e|]. apply Cc.
      replace (par_val (e_alpha e) i / e_tau e * dt) with (par_val (e_alpha e) i * dt / e_tau e) by (unfold Rdiv; ring). exact Hc.
    - exists (/ dt). eexists. split; [now left|]. apply Cc. rewrite Rinv_l; lra. }
  destruct Goal as (c & qe & Hg & Ce & Hqe & Hqe1).
  assert (Gt : exists fg P qg, (forall g, sub_diffeq (m_gating m) [g] = Ok [fg g]) /\ calm fg dt P qg me /\ 0 <= qg < 1 /\ P (nth (3 * m_dim m + 1) x 0) /\ forall g, P g -> fades (m_gating m) dt g).
  { assert (Sk : sub_ok (m_gating m)) by apply W. assert (Sd : sub_dim (m_gating m) = 1%nat) by apply W. unfold fades in Fa. destruct (m_gating m) as [e|s| |]; try contradiction.
    - pose proof Fa as [F1 F2]. destruct Sk as (O1 & O2 & O3). cbn [sub_tau] in O1. unfold sub_dim in Sd. cbn [sub_init] in Sd.
      set (cc := par_val (e_alpha e) 0 / e_tau e). replace (par_val (e_alpha e) 0 * dt / e_tau e) with (cc * dt) in F2 by (unfold cc, Rdiv; ring).
      exists (fun g => - cc * g), (fun _ => True), (Rabs (decay me (cc * dt))). split; [|split; [now apply calm_linear|split; [|split; [exact I|intros g _; exact Fa]]]].
      + intros g. cbn [sub_diffeq]. rewrite e_diffeq_ok; trivial; [|now rewrite Sd]. rewrite Sd. cbn [seq map nth]. rewrite F1. do 2 f_equal. unfold cc. field. exact O1.
      + split; [apply Rabs_pos|now apply decay_small].
    - destruct Fa as (F1 & F2 & F3). destruct Sk as (O1 & O2 & O3 & O4). unfold sub_dim in Sd. cbn [sub_init] in Sd.
      assert (Hn : 0 < nth 0 (g_init s) 0) by (pose proof (O4 0%nat ltac:(lia)); lra). set (n0 := nth 0 (g_init s) 0) in *.
      assert (HK : n0 < sK s 0). { unfold sK. fold n0. pose proof (sB_pos s 0) as Q. assert (0 < n0 * sB s 0) by now apply Rmult_lt_0_compat. lra. }
      destruct (calm_sigmoid (fun g => par_val (g_rate s) 0 * g * (1 - g / sK s 0)) (par_val (g_rate s) 0) (sK s 0) n0 dt (fun g => eq_refl) F1 (conj Hn HK) Hd F2) as [Hq Hc].
      eexists _, _, _. split; [|split; [apply Hc|split; [exact Hq|split; [exact F3|intros g Hg'; cbn [fades]; fold n0; now split]]]]. intros g. cbn [sub_diffeq]. rewrite s_diffeq_ok; trivial; [|now rewrite Sd]. rewrite Sd. reflexivity. }
  destruct Gt as (fg & P & qg & Hfg & Cg & Hqg & HP & HPf).
  assert (Ph : exists B fp, (forall p, sub_diffeq (m_phase m) [p] = Ok [fp p]) /\ stays fp dt B me /\ Rabs (nth (3 * m_dim m) x 0) <= B).
  { assert (Sk : sub_ok (m_phase m)) by apply W. assert (Sd : sub_dim (m_phase m) = 1%nat) by apply W. unfold phase_stays in Ad. destruct (m_phase m) as [e| | |t]; try contradiction.
    - destruct Ad as [F1 F2]. destruct Sk as (O1 & O2 & O3). cbn [sub_tau] in O1. unfold sub_dim in Sd. cbn [sub_init] in Sd.
      set (cc := par_val (e_alpha e) 0 / e_tau e). replace (par_val (e_alpha e) 0 * dt / e_tau e) with (cc * dt) in F2 by (unfold cc, Rdiv; ring).
      exists (Rabs (nth (3 * m_dim m) x 0)), (fun g => - cc * g). split; [|split; [now apply (stays_linear _ cc)|apply Rle_refl]].
      intros g. cbn [sub_diffeq]. rewrite e_diffeq_ok; trivial; [|now rewrite Sd]. rewrite Sd. cbn [seq map nth]. rewrite F1. do 2 f_equal. unfold cc. field. exact O1.
    - set (B := Rmax (Rabs (nth (3 * m_dim m) x 0)) (1 + dt * (1 / t_tau t))). assert (Hr : 0 <= 1 / t_tau t) by (left; apply Rdiv_lt_0_compat; lra).
      exists B, (if t_down t then fun g => if Rlt_dec 0 g then - (1 / t_tau t) else 0 else fun g => if Rlt_dec g 1 then 1 / t_tau t else 0). split; [|split; [|apply Rmax_l]].
      + intros p. cbn [sub_diffeq]. unfold t_diffeq. destruct (Req_EM_T (t_tau t) 0) as [|Nz]; [lra|]. destruct (t_down t).
        * destruct (Rlt_dec 0 p); [|reflexivity]. do 2 f_equal. field. exact Nz.
        * destruct (Rlt_dec p 1); reflexivity.
      + destruct (t_down t); [apply (stays_down _ (1 / t_tau t))|apply (stays_up _ (1 / t_tau t))]; trivial; apply Rmax_r. }
  destruct Ph as (B & fp & Hfp & Cp & HB). destruct (BF B) as (F & HF). split.
  - exact (reaches_goal pf m i a dt me W Hi Cr Pm Ht Hd Hu F B HF fp Hfp Cp fg P qg Hfg Cg c qe Hg Ce Hqe Hqg Hqe1 m1 x T L HP HB).
  - intros k. destruct (all_steps pf m i a dt me W Hi Cr Pm Ht Hd Hu F B HF fp Hfp Cp fg P qg Hfg Cg c qe Hg Ce Hqg m1 x T L HP HB k) as ((m2 & E & T2) & Lk & Pk & _).
    exists m2, (state pf dt me m1 x k). split; [exact E|]. split; [exact T2|]. split; [exact Lk|]. exact (HPf _ Pk).
Qed.
