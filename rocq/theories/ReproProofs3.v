(** Proofs: parameters that are close give predictions and movements that are close. *)
From Coq Require Import String.
From Verif Require Import Base BaseLemmas DynModel DynSpec DynProofs ParamModel ParamSpec ParamProofs FaModel FaProofs4 TrajModel TrajProofs DmpModel DmpSpec DmpProofs7 DmpProofs8 DmpProofs18
  CppModel CppSpec CppProofs UpdatersModel OptSpec OptProofs2 ExploreSpec ExploreProofs TaskProofs2 ViaSpec ViaProofs ViaProofs2 ReproSpec ReproProofs.
Open Scope string_scope.
Open Scope R_scope.

Section Near.
Variable e : R.
Hypothesis He : 0 <= e.
Notation close := (Forall2 (fun a b : R => Rabs (a - b) <= e)).
Lemma close_refl x : close x x.
Proof. induction x; constructor; trivial. now rewrite Rminus_eq_0, Rabs_R0. Qed.
Lemma close_length x y : close x y -> length x = length y.
Proof. induction 1; cbn; congruence. Qed.
Lemma close_firstn n : forall x y, close x y -> close (firstn n x) (firstn n y).
Proof. induction n as [|n IH]; intros x y C; cbn; [constructor|]. destruct C; constructor; auto. Qed.
Lemma close_skipn n : forall x y, close x y -> close (skipn n x) (skipn n y).
Proof. induction n as [|n IH]; intros x y C; cbn; [exact C|]. destruct C; [constructor|auto]. Qed.
Lemma close_nth x y : close x y -> forall j, Rabs (nth j x 0 - nth j y 0) <= e.
Proof. induction 1 as [|a b x y H _ IH]; intros [|j]; cbn; trivial; now rewrite Rminus_0_r, Rabs_R0. Qed.

(** ** dictionaries *)
Definition near1 (a b : option pval) : Prop :=
  (exists s x y, a = Some (PArr (Arr s x)) /\ b = Some (PArr (Arr s y)) /\ close x y) \/ a = b.
Definition near (mx my : list (string * pval)) : Prop := forall name, near1 (lookup mx name) (lookup my name).
Lemma near_refl m : near m m.
Proof. intros name. now right. Qed.
Lemma near_shape a b s x : near1 a b -> a = Some (PArr (Arr s x)) -> exists y, b = Some (PArr (Arr s y)) /\ close x y.
Proof.
  intros [(s0 & x0 & y & -> & -> & C)|<-] E; [injection E as -> ->; now exists y|]. exists x. split; [exact E|apply close_refl].
Qed.
Lemma near_assign mx my l s x y : near mx my -> close x y -> near (assign mx l (PArr (Arr s x))) (assign my l (PArr (Arr s y))).
Proof.
  intros B C name. destruct (string_dec name l) as [->|N]; [rewrite !lookup_assign_eq; left; now exists s, x, y|].
  rewrite !lookup_assign_neq by exact N. apply B.
Qed.
Lemma set_values_near sel : forall mx my vx vy mx' my', near mx my -> close vx vy ->
  set_values mx sel vx = (mx', Ok tt) -> set_values my sel vy = (my', Ok tt) -> near mx' my'.
Proof.
  induction sel as [|l sel IH]; intros mx my vx vy mx' my' B L Ex Ey; cbn [set_values] in *.
  { injection Ex as <-. injection Ey as <-. exact B. }
  destruct (lookup mx l) as [[ |[[|s0 s] dx]| ]|] eqn:El; try discriminate.
  destruct (near_shape _ _ _ _ (B l) El) as (dy & E1 & _). rewrite E1 in Ey. cbv zeta in *. set (n := prod (s0 :: s)) in *.
  destruct (Nat.eqb (length (firstn n vx)) n); [|discriminate]. destruct (Nat.eqb (length (firstn n vy)) n); [|discriminate].
  exact (IH _ _ _ _ _ _ (near_assign _ _ l (s0 :: s) _ _ B (close_firstn n _ _ L)) (close_skipn n _ _ L) Ex Ey).
Qed.
Lemma fa_set_near f vx vy fx fy : close vx vy -> fa_set f vx = (fx, Ok tt) -> fa_set f vy = (fy, Ok tt) -> near (f_model fx) (f_model fy).
Proof.
  intros L Ex Ey. unfold fa_set in *. destruct (is_trained f); [|discriminate]. destruct (fa_size f) as [n|]; [|discriminate].
  destruct (Nat.eqb (length vx) n); [|discriminate]. destruct (Nat.eqb (length vy) n); [|discriminate].
  destruct (f_sel f) as [sel|]; [|discriminate].
  destruct (set_values (f_model f) sel vx) as [mx rx] eqn:E1, (set_values (f_model f) sel vy) as [my ry] eqn:E2.
  injection Ex as <- ->. injection Ey as <- ->. exact (set_values_near sel _ _ _ _ _ _ (near_refl _) L E1 E2).
Qed.
Lemma fas_set_near fs : forall vx vy fx fy rx ry, close vx vy -> fas_set fs vx = (fx, Ok rx) -> fas_set fs vy = (fy, Ok ry) ->
  Forall2 (fun gx gy => near (f_model gx) (f_model gy)) fx fy.
Proof.
  induction fs as [|f fs IH]; intros vx vy fx fy rx ry L Ex Ey; cbn [fas_set] in *.
  { injection Ex as <- <-. injection Ey as <- <-. constructor. }
  destruct (is_trained f) eqn:Et.
  - destruct (fa_size f) as [n|]; [|discriminate].
    destruct (fa_set f (firstn n vx)) as [gx [[]|]] eqn:Ax; [|discriminate]. destruct (fa_set f (firstn n vy)) as [gy [[]|]] eqn:Ay; [|discriminate].
    destruct (fas_set fs (skipn n vx)) as [hx qx] eqn:Bx, (fas_set fs (skipn n vy)) as [hy qy] eqn:By.
    injection Ex as <- ->. injection Ey as <- ->. constructor; [exact (fa_set_near f _ _ _ _ (close_firstn n _ _ L) Ax Ay)|].
    exact (IH _ _ _ _ _ _ (close_skipn n _ _ L) Bx By).
  - destruct (fas_set fs vx) as [hx qx] eqn:Bx, (fas_set fs vy) as [hy qy] eqn:By.
    injection Ex as <- ->. injection Ey as <- ->. constructor; [apply near_refl|]. exact (IH _ _ _ _ _ _ L Bx By).
Qed.

(** ** predictions *)
Lemma sumn_abs n f g : (forall j, (j < n)%nat -> Rabs (f j) <= g j) -> Rabs (sumn n f) <= sumn n g.
Proof.
  induction n as [|n IH]; intros H; cbn [sumn]; [rewrite Rabs_R0; lra|].
  pose proof (Rabs_triang (sumn n f) (f n)). pose proof (H n ltac:(lia)). specialize (IH ltac:(intros; apply H; lia)). lra.
Qed.
Lemma one_act_range c w ph j v : one_act exp c w ph j = Ok v -> 0 <= v <= 1.
Proof.
  unfold one_act, FaModel.factor. destruct (Req_EM_T (nth j w 0) 0) as [|N].
  - destruct (Req_EM_T ph (nth j c 0)); cbn [bind]; intros E; [discriminate|]. apply ok_inj in E. lra.
  - cbn [bind]. intros E. apply ok_inj in E. subst v. rewrite Rmult_1_l. split; [left; apply exp_pos|]. rewrite <- exp_0.
    assert (Q : - 0.5 * (ph - nth j c 0) ^ 2 / (nth j w 0 * nth j w 0) <= 0).
    { assert (0 < nth j w 0 * nth j w 0) by (apply Rsqr_pos_lt in N; exact N). assert (0 <= (ph - nth j c 0) ^ 2) by (rewrite <- Rsqr_pow2; apply Rle_0_sqr).
      unfold Rdiv. assert (0 < / (nth j w 0 * nth j w 0)) by now apply Rinv_0_lt_compat.
      assert (0 <= (ph - nth j c 0) ^ 2 * / (nth j w 0 * nth j w 0)) by (apply Rmult_le_pos; lra). lra. }
    destruct Q as [Q|Q]; [left; now apply exp_increasing|rewrite Q; lra].
Qed.
Lemma acts_range c w ph l : forall row, mapM (one_act exp c w ph) l = Ok row -> length row = length l /\ Forall (fun a => 0 <= a <= 1) row.
Proof.
  induction l as [|j l IH]; intros row E; cbn [mapM] in E; [apply ok_inj in E; subst; now split|].
  destruct (one_act exp c w ph j) as [v|] eqn:Ev; [|discriminate]. cbn [bind] in E. destruct (mapM _ l) as [r|] eqn:Er; [|discriminate]. cbn [bind] in E.
  apply ok_inj in E. subst row. destruct (IH r eq_refl) as [L F]. split; [cbn; congruence|]. constructor; [exact (one_act_range _ _ _ _ _ Ev)|exact F].
Qed.

Lemma predict_near kinds i fx fy ph vx vy : fa_portable (kinds i) fx -> fa_portable (kinds i) fy -> near (f_model fx) (f_model fy) -> Rabs ph <= 1 ->
  (forall name, ~ In name movement_names -> lookup (f_model fx) name = lookup (f_model fy) name) ->
  py_predict exp kinds i (f_model fx) ph = Ok vx -> py_predict exp kinds i (f_model fy) ph = Ok vy ->
  exists n, is_column (f_model fx) n "centers" /\ Rabs (vx - vy) <= gain (kinds i) n * e.
Proof.
  intros (_ & n & Hn & Hx) (_ & n' & _ & Hy) B Hph Same Ex Ey.
  assert (Uc : lookup (f_model fx) "centers" = lookup (f_model fy) "centers") by (apply Same; cbn; intuition discriminate).
  assert (Uw : lookup (f_model fx) "widths" = lookup (f_model fy) "widths") by (apply Same; cbn; intuition discriminate).
  destruct (kinds i) eqn:Ek; [| |contradiction].
  - inversion Hx as [|? ? Hc H1]; subst. exists n. split; [exact Hc|]. destruct Hc as (c & Ec & Lc). inversion H1 as [|? ? (w & Ew & Lw) H2]; subst. inversion H2 as [|? ? (v & Ev & Lv) _]; subst.
    destruct (near_shape _ _ _ _ (B "weights") Ev) as (u & Eu & Cu). pose proof (close_length _ _ Cu) as Lu.
    rewrite Ec in Uc. rewrite Ew in Uw. symmetry in Uc, Uw. set (n := length c) in *.
    destruct (mapM (one_act exp c w ph) (seq 0 n)) as [row|er] eqn:Er.
    2:{ exfalso. unfold py_predict in Ex. rewrite Ek in Ex. unfold rbfn_predict in Ex. rewrite (py_acts exp false _ n c w) in Ex by trivial. cbn [andb] in Ex. rewrite Er in Ex. discriminate. }
    rewrite (rbfn_value exp kinds i _ n c w v ph row) in Ex by trivial. rewrite (rbfn_value exp kinds i _ n c w u ph row) in Ey by trivial.
    apply ok_inj in Ex, Ey. subst vx vy. rewrite <- sumn_minus. destruct (acts_range _ _ _ _ _ Er) as [Lr Fr]. rewrite seq_length in Lr.
    cbn [gain]. eapply Rle_trans; [apply (sumn_abs n _ (fun _ => e))|].
    + intros j Hj. rewrite <- Rmult_minus_distr_l, Rabs_mult. rewrite Forall_forall in Fr. pose proof (Fr (nth j row 0) ltac:(apply nth_In; lia)) as R0.
      rewrite (Rabs_pos_eq (nth j row 0)) by lra. pose proof (close_nth _ _ Cu j) as Q. pose proof (Rabs_pos (nth j v 0 - nth j u 0)).
      eapply Rle_trans; [apply Rmult_le_compat; [lra|lra|apply R0|exact Q]|lra].
    + clear. induction n as [|n IH]; [cbn; lra|]. rewrite S_INR. cbn [sumn]. lra.
  - inversion Hx as [|? ? Hc H1]; subst. exists n. split; [exact Hc|]. destruct Hc as (c & Ec & Lc). inversion H1 as [|? ? (w & Ew & Lw) H2]; subst. inversion H2 as [|? ? (v & Ev & Lv) H3]; subst.
    inversion H3 as [|? ? (o & Eo & Lo) _]; subst.
    destruct (near_shape _ _ _ _ (B "slopes") Ev) as (v' & Ev' & Cv). destruct (near_shape _ _ _ _ (B "offsets") Eo) as (o' & Eo' & Co).
    pose proof (close_length _ _ Cv) as Lv'. pose proof (close_length _ _ Co) as Lo'.
    rewrite Ec in Uc. rewrite Ew in Uw. symmetry in Uc, Uw. set (n := length c) in *.
    destruct (if Nat.eqb n 1 then Ok [1] else let* row := mapM (one_act exp c w ph) (seq 0 n) in Ok (FaModel.normalize row)) as [row|er] eqn:Er.
    2:{ exfalso. unfold py_predict in Ex. rewrite Ek in Ex. unfold lwr_predict in Ex. destruct (get_lines _ _); [|discriminate]. cbn [bind] in Ex.
        rewrite (py_acts exp true _ n c w) in Ex by trivial. cbn [andb] in Ex. destruct (Nat.eqb n 1); [discriminate|].
        destruct (mapM (one_act exp c w ph) (seq 0 n)); discriminate. }
    rewrite (lwr_value exp kinds i _ n c w v o ph row) in Ex by trivial. rewrite (lwr_value exp kinds i _ n c w v' o' ph row) in Ey by (trivial; congruence).
    assert (Rw : length row = n /\ Forall (fun a => 0 <= a) row /\ rsum row = 1).
    { destruct (Nat.eqb_spec n 1) as [->|]; [apply ok_inj in Er; subst row; repeat split; [repeat constructor; lra|cbn; lra]|].
      destruct (mapM (one_act exp c w ph) (seq 0 n)) as [r0|] eqn:E0; [|discriminate]. cbn [bind] in Er. apply ok_inj in Er. subst row.
      destruct (acts_range _ _ _ _ _ E0) as [Lr Fr]. rewrite seq_length in Lr. rewrite normalize_length. split; [exact Lr|]. split.
      - apply normalize_nonneg. eapply Forall_impl; [|exact Fr]. cbv beta. intros; lra.
      - apply normalize_sum. intros ->. cbn in Lr. lia. }
    destruct Rw as (Lr & Fr & Sr). apply ok_inj in Ex, Ey. subst vx vy. rewrite <- sumn_minus. cbn [gain].
    eapply Rle_trans; [apply (sumn_abs n _ (fun j => 2 * e * nth j row 0))|].
    + intros j Hj. rewrite <- Rmult_minus_distr_r, Rabs_mult. rewrite Forall_forall in Fr. pose proof (Fr (nth j row 0) ltac:(apply nth_In; lia)) as R0. cbv beta in R0.
      rewrite (Rabs_pos_eq (nth j row 0)) by exact R0. apply Rmult_le_compat_r; [exact R0|].
      replace (ph * nth j v 0 + nth j o 0 - (ph * nth j v' 0 + nth j o' 0)) with (ph * (nth j v 0 - nth j v' 0) + (nth j o 0 - nth j o' 0)) by ring.
      pose proof (close_nth _ _ Co j) as Q1. pose proof (close_nth _ _ Cv j) as Q2.
      pose proof (Rabs_triang (ph * (nth j v 0 - nth j v' 0)) (nth j o 0 - nth j o' 0)) as T. rewrite Rabs_mult in T.
      assert (Rabs ph * Rabs (nth j v 0 - nth j v' 0) <= 1 * e) by (apply Rmult_le_compat; trivial; apply Rabs_pos). lra.
    + rewrite sumn_scal. rewrite rsum_nth, Lr in Sr. rewrite Sr. lra.
Qed.
End Near.

Section E.
Variable kinds : nat -> fa_kind.
Notation pf := (py_predict exp kinds).

Lemma pred_near m vx vy fx fy rx ry e ph i n : 0 <= e -> wf pf m -> selectable_dmp (pdmp_of m) -> linear_params kinds m -> basis_upto m i n ->
  dmp_size (pdmp_of m) = Ok (length vx) -> dmp_size (pdmp_of m) = Ok (length vy) -> within e vx vy ->
  fas_set (fas_of (pdmp_of m)) vx = (fx, Ok rx) -> fas_set (fas_of (pdmp_of m)) vy = (fy, Ok ry) ->
  fas_of (pdmp_of (made m fx rx)) = fx -> fas_of (pdmp_of (made m fy ry)) = fy -> Rabs ph <= 1 ->
  Rabs (pred_val pf (made m fx rx) ph i - pred_val pf (made m fy ry) ph i) <= gain (kinds i) n * e.
Proof.
  intros He W Hsel Hlin Hb Hx Hy Hc Ex Ey Fx Fy Hph. unfold pred_val. rewrite Fx, Fy. pose proof (wf_goal_fits _ _ W) as Hg.
  assert (G0 : 0 <= gain (kinds i) n * e) by (apply Rmult_le_pos; [unfold gain; destruct (kinds i); try lra; apply pos_INR|exact He]).
  assert (Z : Rabs (0 - 0) <= gain (kinds i) n * e) by (now rewrite Rminus_0_r, Rabs_R0).
  pose proof (forall2_nth_l _ _ _ (fas_set_near e He _ _ _ _ _ _ _ Hc Ex Ey) i) as M.
  pose proof (set_fas exp kinds m vx fx rx Hsel Hlin Hg Hx Ex i) as Nx. pose proof (set_fas exp kinds m vy fy ry Hsel Hlin Hg Hy Ey i) as Ny.
  destruct (nth_error fx i) as [gx|], (nth_error fy i) as [gy|]; try contradiction; [|exact Z].
  destruct (nth_error (fas_of (pdmp_of m)) i) as [f|] eqn:Ei; [|contradiction]. destruct Nx as [Dx Nx], Ny as [Dy Ny].
  assert (Tx : is_trained gx = is_trained f) by (unfold is_trained; now rewrite Dx). assert (Ty : is_trained gy = is_trained f) by (unfold is_trained; now rewrite Dy).
  rewrite Tx, Ty. destruct (is_trained f) eqn:T; [|exact Z]. destruct (Nx eq_refl) as (Px & Ux & Kx), (Ny eq_refl) as (Py & Uy & Ky).
  assert (Fm : exists l, m_fas m = Some l /\ nth_error l i = Some f).
  { unfold fas_of, pdmp_of in Ei. cbn [p_fas] in Ei. destruct (m_fas m) as [l|]; [now exists l|]. now destruct i. }
  destruct Fm as (l & El & Ni).
  assert (Q : exists v, pf i (f_model f) ph = Ok v).
  { pose proof W as (_ & _ & _ & _ & _ & _ & _ & _ & _ & _ & _ & _ & _ & _ & _ & _ & _ & _ & W19). unfold fas_ok in W19. rewrite El in W19. destruct W19 as [_ Wp]. now apply (Wp i f). }
  destruct (Kx ph Q) as [ax Ax]. destruct (Ky ph Q) as [ay Ay]. rewrite Ax, Ay.
  destruct (predict_near e He kinds i gx gy ph ax ay Px Py M Hph) as (k & (c & Ec & _) & B); [intros name Hn; now rewrite (Ux name Hn), (Uy name Hn)|exact Ax|exact Ay|].
  rewrite (Ux "centers") in Ec by (cbn; intuition discriminate). pose proof (Hb l f k c El Ni T Ec) as Hk.
  eapply Rle_trans; [exact B|]. apply Rmult_le_compat_r; [exact He|]. unfold gain. destruct (kinds i); try lra. now apply le_INR.
Qed.

Theorem explored m vx vy e ts i n a b c : 0 <= e -> wf pf m -> selectable_dmp (pdmp_of m) -> linear_params kinds m -> ~ In "goal" (m_sel m) -> basis_upto m i n ->
  dmp_size (pdmp_of m) = Ok (length vx) -> within e vx vy -> ts <> [] -> (i < m_dim m)%nat -> damped m i a b -> steps_upto b ts ->
  exists mx my rx ry, m_set_params m vx = (mx, Ok tt) /\ m_set_params m vy = (my, Ok tt) /\ ana pf mx ts false = Ok rx /\ ana pf my ts false = Ok ry /\
    ((forall k, (k < length ts)%nat -> Rabs (pv (m_dim m) (a_xs rx) k) <= 1 /\ Rabs (av (m_dim m) (a_xs rx) k * factor m i) <= c) ->
    let phi := c * (gain (kinds i) n * e) in let tau := m_tau m in
    forall k, (k < length ts)%nat ->
    Rabs (yv (a_xs ry) k i - yv (a_xs rx) k i) <= phi / (a * a) /\
    Rabs (yv (a_xds ry) k i - yv (a_xds rx) k i) <= 2 * phi / (a * tau) /\
    Rabs (zv (m_dim m) (a_xds ry) k i / tau - zv (m_dim m) (a_xds rx) k i / tau) <= 4 * phi / (tau * tau)).
Proof.
  intros He W Hsel Hlin Hng Hb Hx Hc Hne Hi Dp Hs. pose proof (wf_goal_fits _ _ W) as Hg.
  assert (Hy : dmp_size (pdmp_of m) = Ok (length vy)) by (rewrite <- (close_length e vx vy Hc); exact Hx).
  assert (Mg : mem "goal" (m_sel m) = false).
  { destruct (mem "goal" (m_sel m)) eqn:Em; [|reflexivity]. exfalso. apply Hng. unfold mem in Em. apply existsb_exists in Em. destruct Em as (s & Is & Es). apply String.eqb_eq in Es. now subst s. }
  destruct (set_made m vx Hsel Hg Hx) as (fx & rx & Ex & Mx & _ & Fx). destruct (set_made m vy Hsel Hg Hy) as (fy & ry & Ey & My & _ & Fy).
  pose proof (made_wf exp kinds m vx fx rx W Hsel Hlin Hx Ex) as Wx. pose proof (made_wf exp kinds m vy fy ry W Hsel Hlin Hy Ey) as Wy.
  destruct (ana_total pf _ ts false Wx Hne) as (qx & Qx & Sx). destruct (ana_total pf _ ts false Wy Hne) as (qy & Qy & Sy).
  exists (made m fx rx), (made m fy ry), qx, qy. do 4 (split; [assumption|]). intros Hpa phi tau.
  assert (Eu : forall fs r, made m fs r = upd_fas m (option_map (fun _ => fs) (m_fas m))).
  { intros fs r. unfold made, upd_fas, new_attr, new_goal. rewrite Mg. cbn [andb]. now rewrite goal_with_old. }
  assert (Ey' : made m fy ry = upd_fas (made m fx rx) (option_map (fun _ => fy) (m_fas m))) by (rewrite !Eu; reflexivity).
  assert (Dx : damped (made m fx rx) i a b) by (rewrite Eu; exact Dp).
  pose proof (fun ph => pred_near m vx vy fx fy rx ry e ph i n He W Hsel Hlin Hb Hx Hy Hc Ex Ey Fx Fy) as PN.
  pose proof (forced_apart pf (made m fx rx) (option_map (fun _ => fy) (m_fas m)) ts false false qx qy i a b phi) as FA. cbv zeta in FA. rewrite <- Ey' in FA.
  change (m_dim (made m fx rx)) with (m_dim m) in FA. change (m_tau (made m fx rx)) with (m_tau m) in FA. fold tau in FA. apply FA; trivial.
  intros k Hk. destruct (Hpa k Hk) as [Hp Ha].
  destruct Sx as (_ & _ & _ & _ & _ & (ppx & ppdx & Phx & Hpx) & (pgx & pgdx & Gax & Hax) & _ & _ & Fox & _).
  destruct Sy as (_ & _ & _ & _ & _ & (ppy & ppdy & Phy & Hpy) & (pgy & pgdy & Gay & Hay) & _ & _ & Foy & _).
  change (m_dim (made m fx rx)) with (m_dim m) in *. change (m_dim (made m fy ry)) with (m_dim m) in *.
  change (m_phase (made m fx rx)) with (m_phase m) in *. change (m_phase (made m fy ry)) with (m_phase m) in *.
  change (m_gating (made m fx rx)) with (m_gating m) in *. change (m_gating (made m fy ry)) with (m_gating m) in *.
  rewrite Phx in Phy. injection Phy as <- <-. rewrite Gax in Gay. injection Gay as <- <-.
  assert (Pe : pv (m_dim m) (a_xs qy) k = pv (m_dim m) (a_xs qx) k) by (rewrite (proj1 (Hpx k Hk)), (proj1 (Hpy k Hk)); reflexivity).
  assert (Ge : av (m_dim m) (a_xs qy) k = av (m_dim m) (a_xs qx) k) by (rewrite (proj1 (Hax k Hk)), (proj1 (Hay k Hk)); reflexivity).
  destruct (Fox k i Hk Hi) as [A1 A2]. destruct (Foy k i Hk Hi) as [B1 B2]. rewrite A2, B2, A1, B1, Pe, Ge.
  assert (Fc : forall fs r, factor (made m fs r) i = factor m i) by (intros; rewrite Eu; reflexivity). rewrite !Fc.
  set (g := av (m_dim m) (a_xs qx) k * factor m i) in *. set (p := pred_val pf (made m fx rx) (pv (m_dim m) (a_xs qx) k) i). set (q := pred_val pf (made m fy ry) (pv (m_dim m) (a_xs qx) k) i).
  rewrite !Rmult_assoc. fold g. rewrite <- Rmult_minus_distr_r, Rabs_mult, Rmult_comm. unfold phi. apply Rmult_le_compat; try apply Rabs_pos; [exact Ha|].
  rewrite Rabs_minus_sym. unfold p, q. now apply PN.
Qed.
End E.
