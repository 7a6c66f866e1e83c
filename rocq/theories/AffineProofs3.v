(** Proofs: DMPs that are images of each other roll out trajectories that are images of each other. *)
From Coq Require Import String.
From Verif Require Import Base BaseLemmas DynModel DynSpec DynProofs ParamModel FaModel TrajModel DmpModel DmpSpec DmpProofs DmpProofs7 CppModel CppSpec AffineSpec AffineProofs.
Open Scope string_scope.
Open Scope R_scope.

Section M.
Variables (A : nat -> nat -> R) (b : nat -> R) (n n' : nat).
Notation lin y i := (image A no_shift n y i).
Notation img y i := (image A b n y i).

Lemma lin_ext y y' i : (forall j, (j < n)%nat -> y j = y' j) -> lin y i = lin y' i.
Proof. intros H. unfold image. f_equal. apply sumn_ext. intros j Hj. now rewrite H. Qed.
Lemma img_ext y y' i : (forall j, (j < n)%nat -> y j = y' j) -> img y i = img y' i.
Proof. intros H. unfold image. f_equal. apply sumn_ext. intros j Hj. now rewrite H. Qed.
Lemma lin_scal c y i : lin (fun j => c * y j) i = c * lin y i.
Proof. unfold image, no_shift. rewrite !Rplus_0_r. apply comb_scal. Qed.
Lemma lin_plus x y i : lin (fun j => x j + y j) i = lin x i + lin y i.
Proof. unfold image, no_shift. rewrite !Rplus_0_r. apply comb_plus. Qed.
Lemma lin_minus x y i : lin (fun j => x j - y j) i = img x i - img y i.
Proof.
  transitivity (lin x i + -1 * lin y i); [|unfold image, no_shift; ring]. rewrite <- lin_scal, <- lin_plus. apply lin_ext. intros; ring.
Qed.
Lemma img_plus x y i : img (fun j => x j + y j) i = img x i + lin y i.
Proof. unfold image, no_shift. rewrite comb_plus. ring. Qed.

(** m' is made for the image of what m is made for *)
Record linked (m m' : dmp) : Prop := Linked {
  lk_dim : m_dim m = n; lk_dim' : m_dim m' = n';
  lk_tau : m_tau m' = m_tau m; lk_phase : m_phase m' = m_phase m; lk_gating : m_gating m' = m_gating m;
  lk_damping : m_damping m = None; lk_damping' : m_damping m' = None;
  lk_req : m_req m = false; lk_req' : m_req m' = false;
  lk_scal : m_scaling m = NoScaling; lk_scal' : m_scaling m' = NoScaling;
  lk_spring : exists c k q, d_damp (m_spring m) = PScal c /\ d_damp (m_spring m') = PScal c /\ d_spring (m_spring m) = PScal k /\
     d_spring (m_spring m') = PScal k /\ d_mass (m_spring m) = PScal q /\ d_mass (m_spring m') = PScal q;
  lk_attr : forall i, (i < n')%nat -> nth i (m_attr m') 0 = img (fun j => nth j (m_attr m) 0) i;
  lk_goal : (m_goal m = None /\ m_goal m' = None) \/
     exists tg y a y' a' al, m_goal m = Some (SubE (Esys tg y a (PScal al))) /\ m_goal m' = Some (SubE (Esys tg y' a' (PScal al))) /\
       tg <> 0 /\ length y = n /\ length a = n /\ length y' = n' /\ length a' = n' /\
       forall i, (i < n')%nat -> nth i y' 0 = img (fun j => nth j y 0) i /\ nth i a' 0 = img (fun j => nth j a 0) i;
  lk_init : forall i, (i < n')%nat -> nth i (d_init (m_spring m')) 0 = img (fun j => nth j (d_init (m_spring m)) 0) i /\
     nth (n' + i) (d_init (m_spring m')) 0 = lin (fun j => nth (n + j) (d_init (m_spring m)) 0) i }.

Section P.
Variable pf : nat -> list (string * pval) -> R -> res R.
Variables (m m' : dmp) (ts : list R) (r r' : ana_result).
Hypothesis K : linked m m'.
Hypothesis S1 : rollout_spec pf m ts false r.
Hypothesis S2 : rollout_spec pf m' ts false r'.

Lemma linked_parts k : (k < length ts)%nat ->
  pv n' (a_xs r') k = pv n (a_xs r) k /\ av n' (a_xs r') k = av n (a_xs r) k /\
  (forall i, (i < n')%nat -> gv n' (a_xs r') k i = img (gv n (a_xs r) k) i).
Proof.
  intros Hk. destruct S1 as (_ & _ & _ & _ & _ & (px & pdx & Px & Hpx) & (gx & gdx & Gx & Hgx) & Go & _).
  destruct S2 as (_ & _ & _ & _ & _ & (py & pdy & Py & Hpy) & (gy & gdy & Gy & Hgy) & Go' & _).
  rewrite (lk_dim _ _ K) in *. rewrite (lk_dim' _ _ K) in *. rewrite (lk_phase _ _ K), Px in Py. rewrite (lk_gating _ _ K), Gx in Gy.
  injection Py as <- <-. injection Gy as <- <-.
  split; [now rewrite (proj1 (Hpx k Hk)), (proj1 (Hpy k Hk))|]. split; [now rewrite (proj1 (Hgx k Hk)), (proj1 (Hgy k Hk))|].
  intros i Hi. destruct (lk_goal _ _ K) as [[E E']|(tg & y & a & y' & a' & al & E & E' & Nt & Ly & La & Ly' & La' & H)]; rewrite E in Go; rewrite E' in Go'.
  - rewrite (proj1 (Go' k i Hk Hi)). rewrite (lk_attr _ _ K) by exact Hi. apply img_ext. intros j Hj. symmetry. apply (Go k j Hk Hj).
  - destruct Go as (p1 & p1' & E1 & H1), Go' as (p2 & p2' & E2 & H2). rewrite (proj1 (H2 k i Hk Hi)).
    cbn [sub_ana] in E1, E2. rewrite e_ana_ok in E1, E2 by (cbn [e_tau e_attr e_init e_alpha]; first [exact Nt|congruence|exact I]).
    assert (Q1 : p1 = map (eX (Esys tg y a (PScal al))) ts) by congruence. assert (Q2 : p2 = map (eX (Esys tg y' a' (PScal al))) ts) by congruence.
    assert (V : forall N (u v : list R) q, length u = N -> (q < N)%nat -> at_ (map (eX (Esys tg u v (PScal al))) ts) k q = exp (- al * nth k ts 0 / tg) * nth q u 0 + (1 - exp (- al * nth k ts 0 / tg)) * nth q v 0).
    { intros N u v q Lu Hq. unfold at_. rewrite (nth_map_lt _ _ k 0) by exact Hk. unfold eX. cbn [e_init e_attr e_alpha e_tau]. rewrite nth_map_seq by lia. cbn [par_val]. ring. }
    rewrite Q2, (V n') by assumption. destruct (H i Hi) as [-> ->]. set (e := exp _) in *.
    transitivity (img (fun j => e * nth j y 0 + (1 - e) * nth j a 0) i).
    + unfold image. rewrite comb_plus, !comb_scal. ring.
    + apply img_ext. intros j Hj. rewrite (proj1 (H1 k j Hk Hj)), Q1. symmetry. now apply (V n).
Qed.

Hypothesis Pr : forall ph i, (i < n')%nat -> pred_val pf m' ph i = lin (pred_val pf m ph) i.

Lemma rollouts_image k : (k < length ts)%nat -> forall i, (i < n')%nat ->
  yv (a_xs r') k i = img (yv (a_xs r) k) i /\ zv n' (a_xs r') k i = lin (zv n (a_xs r) k) i /\ zv n' (a_xds r') k i = lin (zv n (a_xds r) k) i.
Proof.
  pose proof linked_parts as LP.
  destruct S1 as (_ & _ & _ & _ & _ & _ & _ & _ & Cx & Fx & Ix & Dx & Stx). destruct S2 as (_ & _ & _ & _ & _ & _ & _ & _ & Cy & Fy & Iy & Dy & Sty).
  rewrite (lk_damping _ _ K) in Cx. rewrite (lk_damping' _ _ K) in Cy. rewrite (lk_dim _ _ K) in *. rewrite (lk_dim' _ _ K) in *.
  destruct (lk_spring _ _ K) as (c & kk & q & D1 & D2 & K1 & K2 & M1 & M2).
  assert (Step : forall k, (k < length ts)%nat -> forall i, (i < n')%nat -> yv (a_xs r') k i = img (yv (a_xs r) k) i ->
    zv n' (a_xs r') k i = lin (zv n (a_xs r) k) i -> zv n' (a_xds r') k i = lin (zv n (a_xds r) k) i).
  { intros k0 Hk i Hi Y Z. destruct (LP k0 Hk) as (Lp & La & Lg). destruct (Dy k0 i Hk Hi) as [_ ->].
    transitivity (lin (fun j => (- kk * (yv (a_xs r) k0 j - gv n (a_xs r) k0 j) + - c * zv n (a_xs r) k0 j) * / (q * m_tau m) + pred_val pf m (pv n (a_xs r) k0) j * (av n (a_xs r) k0 / m_tau m)) i).
    - unfold accel, target. rewrite (lk_req' _ _ K), K2, M2, (lk_tau _ _ K). cbn [par_val].
      destruct (Cy k0 i Hk Hi) as [-> _]. rewrite D2. cbn [par_val]. destruct (Fy k0 i Hk Hi) as [-> ->].
      assert (Ff : factor m' i = 1) by (unfold factor; now rewrite (lk_scal' _ _ K)). rewrite Ff, Lp, La, Lg by exact Hi.
      rewrite Pr by exact Hi. rewrite Y, Z. rewrite lin_plus.
      rewrite (lin_ext (fun j => (- kk * (yv (a_xs r) k0 j - gv n (a_xs r) k0 j) + - c * zv n (a_xs r) k0 j) * / (q * m_tau m))
        (fun j => / (q * m_tau m) * (- kk * (yv (a_xs r) k0 j - gv n (a_xs r) k0 j) + - c * zv n (a_xs r) k0 j)) i) by (intros; ring).
      rewrite lin_scal, lin_plus, !lin_scal, lin_minus.
      rewrite (lin_ext (fun j => pred_val pf m (pv n (a_xs r) k0) j * (av n (a_xs r) k0 / m_tau m))
        (fun j => (av n (a_xs r) k0 / m_tau m) * pred_val pf m (pv n (a_xs r) k0) j) i) by (intros; ring).
      rewrite lin_scal. unfold Rdiv. ring.
    - apply lin_ext. intros j Hj. destruct (Dx k0 j Hk Hj) as [_ ->]. unfold accel, target. rewrite (lk_req _ _ K), K1, M1. cbn [par_val].
      destruct (Cx k0 j Hk Hj) as [-> _]. rewrite D1. cbn [par_val]. destruct (Fx k0 j Hk Hj) as [-> ->].
      assert (Ff : factor m j = 1) by (unfold factor; now rewrite (lk_scal _ _ K)). rewrite Ff. unfold Rdiv. ring. }
  induction k as [|k IH]; intros Hk i Hi.
  - destruct (Iy i Hi) as [Y1 Z1]. destruct (lk_init _ _ K i Hi) as [J1 J2].
    assert (Y : yv (a_xs r') 0 i = img (yv (a_xs r) 0) i) by (rewrite Y1, J1; apply img_ext; intros j Hj; symmetry; apply (Ix j Hj)).
    assert (Z : zv n' (a_xs r') 0 i = lin (zv n (a_xs r) 0) i) by (rewrite Z1, J2; apply lin_ext; intros j Hj; symmetry; apply (Ix j Hj)).
    split; [exact Y|]. split; [exact Z|]. now apply Step.
  - destruct (IH ltac:(lia) i Hi) as (Y0 & Z0 & A0). destruct (Sty k i Hk Hi) as [Y1 Z1]. destruct (Dy k i ltac:(lia) Hi) as [V1 _].
    assert (Y : yv (a_xs r') (S k) i = img (yv (a_xs r) (S k)) i).
    { rewrite Y1, V1, Y0, Z0, (lk_tau _ _ K). transitivity (img (fun j => yv (a_xs r) k j + (nth (S k) ts 0 - nth k ts 0) / m_tau m * zv n (a_xs r) k j) i).
      - rewrite img_plus, lin_scal. unfold Rdiv. ring.
      - apply img_ext. intros j Hj. destruct (Stx k j Hk Hj) as [-> _]. destruct (Dx k j ltac:(lia) Hj) as [-> _]. unfold Rdiv. ring. }
    assert (Z : zv n' (a_xs r') (S k) i = lin (zv n (a_xs r) (S k)) i).
    { rewrite Z1, Z0, A0. transitivity (lin (fun j => zv n (a_xs r) k j + (nth (S k) ts 0 - nth k ts 0) * zv n (a_xds r) k j) i).
      - rewrite lin_plus, lin_scal. ring.
      - apply lin_ext. intros j Hj. destruct (Stx k j Hk Hj) as [_ ->]. ring. }
    split; [exact Y|]. split; [exact Z|]. now apply Step.
Qed.
End P.

(** ** the targets *)
Lemma targets_image pf m m' t t' phs tg phs' tg' : linked m m' -> wf pf m -> wf pf m' -> image_traj A b n n' t t' -> tj_ts t <> [] ->
  targets pf m t = Ok (phs, tg) -> targets pf m' t' = Ok (phs', tg') ->
  phs' = phs /\ length phs = length (tj_ts t) /\ length tg = length (tj_ts t) /\ length tg' = length (tj_ts t) /\
  forall k i, (k < length (tj_ts t))%nat -> (i < n')%nat -> at_ tg' k i = lin (at_ tg k) i.
Proof.
  intros K W W' (D & D' & Et & H) Hne E E'.
  destruct (ana_total pf m (tj_ts t) false W Hne) as (r & Er & S1). destruct (ana_total pf m' (tj_ts t) false W' Hne) as (r' & Er' & S2).
  rewrite <- (lk_dim _ _ K) in D. rewrite <- (lk_dim' _ _ K) in D'. assert (Hne' : tj_ts t' <> []) by now rewrite Et.
  destruct (targets_spec pf m t phs tg r W D Hne E Er) as (Lp & Lt & T). rewrite <- Et in Er'.
  destruct (targets_spec pf m' t' phs' tg' r' W' D' Hne' E' Er') as (Lp' & Lt' & T'). rewrite Et in *. rewrite (lk_dim _ _ K) in *. rewrite (lk_dim' _ _ K) in *.
  split; [|split; [exact Lp|split; [exact Lt|split; [exact Lt'|]]]].
  - apply (nth_ext _ _ 0 0); [congruence|]. rewrite Lp'. intros k Hk. rewrite (proj1 (T k Hk)), (proj1 (T' k Hk)).
    exact (proj1 (linked_parts pf m m' (tj_ts t) r r' K S1 S2 k Hk)).
  - intros k i Hk Hi. destruct (linked_parts pf m m' (tj_ts t) r r' K S1 S2 k Hk) as (Lpp & La & Lg).
    destruct S1 as (_ & _ & _ & _ & _ & _ & _ & _ & Cx & _). destruct S2 as (_ & _ & _ & _ & _ & _ & _ & _ & Cy & _).
    rewrite (lk_damping _ _ K) in Cx. rewrite (lk_damping' _ _ K) in Cy. rewrite (lk_dim _ _ K) in *. rewrite (lk_dim' _ _ K) in *.
    destruct (lk_spring _ _ K) as (c & kk & q & D1 & D2 & K1 & K2 & M1 & M2).
    destruct (T' k Hk) as (_ & _ & T1). destruct (T1 i Hi) as (Na & _ & T2). destruct (T k Hk) as (_ & _ & T3).
    rewrite La in Na, T2. set (av0 := av n (a_xs r) k) in *.
    assert (F1 : factor m' i = 1) by (unfold factor; now rewrite (lk_scal' _ _ K)). rewrite F1, Rmult_1_r in T2.
    apply (Rmult_eq_reg_r av0); [|exact Na]. rewrite T2. unfold target. rewrite (lk_req' _ _ K), K2, M2, (lk_tau _ _ K), Lg by exact Hi. cbn [par_val].
    rewrite (proj1 (Cy k i Hk Hi)), D2. cbn [par_val]. destruct (H k i Hk Hi) as (-> & -> & ->).
    transitivity (lin (fun j => av0 * at_ tg k j) i); [|rewrite lin_scal; ring].
    transitivity (lin (fun j => m_tau m * m_tau m * at_ (mrows (tj_ydds t)) k j + / q * (kk * (at_ (mrows (tj_ys t)) k j - gv n (a_xs r) k j) + c * m_tau m * at_ (mrows (tj_yds t)) k j)) i).
    + rewrite lin_plus, !lin_scal, lin_plus, !lin_scal, lin_minus. unfold Rdiv. ring.
    + apply lin_ext. intros j Hj. destruct (T3 j Hj) as (_ & _ & T4).
      assert (F2 : factor m j = 1) by (unfold factor; now rewrite (lk_scal _ _ K)). rewrite F2, Rmult_1_r in T4.
      unfold target in T4. rewrite (lk_req _ _ K), K1, M1 in T4. cbn [par_val] in T4. rewrite (proj1 (Cx k j Hk Hj)), D1 in T4. cbn [par_val] in T4.
      rewrite (Rmult_comm av0), T4. unfold Rdiv. ring.
Qed.
End M.
