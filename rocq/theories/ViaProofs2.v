(** Proofs: the rollout of a DMP is affine in its parameters. *)
From Coq Require Import String.
From Verif Require Import Base BaseLemmas DynModel DynSpec DynProofs ParamModel ParamSpec ParamProofs FaModel TrajModel DmpModel DmpSpec DmpProofs DmpProofs7 DmpProofs8 DmpProofs18
  CppModel CppSpec CppProofs UpdatersModel OptSpec OptProofs2 ExploreSpec ExploreProofs TaskProofs2 ViaSpec ViaProofs.
Open Scope string_scope.
Open Scope R_scope.

Lemma forall2_nth_l {A B} (P : A -> B -> Prop) l l' : Forall2 P l l' -> forall i, match nth_error l i, nth_error l' i with
  | Some a, Some b => P a b | None, None => True | _, _ => False end.
Proof. induction 1 as [|a b l l' H _ IH]; intros [|i]; cbn; trivial. apply IH. Qed.

(** ** setting the parameters, explicitly *)
Definition old_goal (m : dmp) : list R := match m_goal m with Some (SubE e) => e_attr e | _ => [] end.
Definition new_attr (m : dmp) (rest : list R) : list R := if mem "goal" (m_sel m) then firstn (m_dim m) rest else m_attr m.
Definition new_goal (m : dmp) (rest : list R) : list R :=
  if (mem "goal" (m_sel m) && negb (m_req m))%bool then firstn (m_dim m) rest else old_goal m.
Definition goal_with (m : dmp) (a : list R) : option sub :=
  match m_goal m with Some (SubE e) => Some (SubE (Esys (e_tau e) (e_init e) a (e_alpha e))) | g => g end.
Definition made (m : dmp) (fs : list fa) (rest : list R) : dmp :=
  Dmp (m_tau m) (m_dim m) (m_x_init m) (m_y0 m) (new_attr m rest) (option_map (fun _ => fs) (m_fas m)) (m_sel m) (m_spring m)
      (goal_with m (new_goal m rest)) (m_phase m) (m_gating m) (m_damping m) (m_req m) (m_scaling m) (m_amps m) (m_ts_train m).
Lemma goal_with_old m : goal_with m (old_goal m) = m_goal m.
Proof. unfold goal_with, old_goal. destruct (m_goal m) as [[[]| | |]|]; reflexivity. Qed.
Definition goal_fits (m : dmp) : Prop := match m_goal m with Some (SubE e) => length (e_init e) = m_dim m | _ => True end.
Lemma set_made m v : selectable_dmp (pdmp_of m) -> goal_fits m -> dmp_size (pdmp_of m) = Ok (length v) ->
  exists fs rest, fas_set (fas_of (pdmp_of m)) v = (fs, Ok rest) /\ m_set_params m v = (made m fs rest, Ok tt) /\
    (mem "goal" (m_sel m) = true -> length (firstn (m_dim m) rest) = m_dim m) /\ fas_of (pdmp_of (made m fs rest)) = fs.
Proof.
  intros Hs Hg Hv. destruct (set_params_ok m Hs Hg v Hv) as (fs & rest & E & m' & Em & H1 & H2). exists fs, rest. split; [exact E|].
  split; [rewrite Em; apply (f_equal2 pair); [|reflexivity]|split].
  - destruct (mem "goal" (m_sel m)) eqn:Eg.
    + destruct (H2 eq_refl) as (Hl & g & Ea & ->). unfold made, upd_attr, upd_fas, new_attr, new_goal. rewrite Eg. cbn. f_equal.
      unfold goal_attr in Ea. unfold goal_with. destruct (m_req m); cbn [negb].
      * destruct (m_goal m) as [g0|] eqn:E0; injection Ea as <-; [|reflexivity]. unfold old_goal. rewrite E0. destruct g0 as [[]| | |]; reflexivity.
      * destruct (m_goal m) as [[e| | |]|] eqn:E0; cbn [sub_set_attr bind] in Ea; try (now injection Ea as <-).
        destruct (Nat.eqb _ _); [|discriminate]. now injection Ea as <-.
    + rewrite (H1 eq_refl). unfold made, upd_fas, new_attr, new_goal. rewrite Eg. cbn [andb]. now rewrite goal_with_old.
  - intros Eg. now destruct (H2 Eg).
  - unfold fas_of, pdmp_of in E |- *. cbn [p_fas] in E |- *. unfold made. cbn [m_fas]. destruct (m_fas m); [reflexivity|]. cbn in E. now injection E as <-.
Qed.
Lemma wf_goal_fits pf m : wf pf m -> goal_fits m.
Proof. intros W. exact (wf_attr_len pf m W). Qed.

Section E.
Variable ex : R -> R.
Variable kinds : nat -> fa_kind.
Notation pf := (py_predict ex kinds).

(** what setting the parameters does to the approximators *)
Lemma set_fas m v fs rest : selectable_dmp (pdmp_of m) -> linear_params kinds m -> goal_fits m -> dmp_size (pdmp_of m) = Ok (length v) ->
  fas_set (fas_of (pdmp_of m)) v = (fs, Ok rest) ->
  forall i, match nth_error (fas_of (pdmp_of m)) i, nth_error fs i with
    | None, None => True
    | Some f, Some f' => f_dim f' = f_dim f /\ (is_trained f = true -> fa_portable (kinds i) f' /\
        (forall name, ~ In name movement_names -> lookup (f_model f') name = lookup (f_model f) name) /\
        (forall ph, (exists v, pf i (f_model f) ph = Ok v) -> exists v, pf i (f_model f') ph = Ok v))
    | _, _ => False
    end.
Proof.
  intros Hsel Hlin Hg Hv E.
  destruct (dmp_set_ok _ v Hsel Hv) as (p' & Ep & Gp & Sp & Hp' & Sf & Es & Ed & _).
  destruct (set_made m v Hsel Hg Hv) as (fs0 & rest0 & E0 & Em & Hl & Ef0). rewrite E in E0. injection E0 as <- <-.
  assert (Efp : fas_of p' = fs).
  { unfold m_set_params in Em. rewrite Ep in Em. unfold fas_of, pdmp_of in Ef0. cbn [p_fas made m_fas] in Ef0. unfold fas_of.
    assert (K : p_fas p' = option_map (fun _ => fs) (m_fas m)).
    { destruct (mem "goal" (m_sel m)); [destruct (goal_attr _ _)|]; inversion Em; reflexivity. }
    rewrite K. exact Ef0. }
  rewrite Efp in Sf. pose proof (forall2_nth_l _ _ _ Sf) as N. intros i. specialize (N i).
  destruct (nth_error (fas_of (pdmp_of m)) i) as [f|] eqn:Ei, (nth_error fs i) as [f'|] eqn:Ei'; trivial.
  destruct N as [S _]. split; [now destruct S|]. intros T.
  assert (T' : is_trained f' = true) by (destruct S as (Sd & _); unfold is_trained in *; now rewrite Sd).
  assert (Sel' : selectable f').
  { destruct Hp' as [F _]. rewrite Efp, Forall_forall in F. apply F; [now apply nth_error_In in Ei'|exact T']. }
  assert (Em' : exists l, m_fas m = Some l /\ nth_error l i = Some f).
  { unfold fas_of, pdmp_of in Ei. cbn [p_fas] in Ei. destruct (m_fas m) as [l|]; [now exists l|]. now destruct i. }
  destruct Em' as (l & El & Ni). destruct (Hlin l El i f Ni T) as [Po Inc].
  destruct (fa_kept ex kinds i f f' S Sel' Inc Po) as [P1 P2]. split; [exact P1|]. split; [|exact P2].
  intros name Hn. exact (untouched f f' name S Inc Hn).
Qed.
Lemma made_wf m v fs rest : wf pf m -> selectable_dmp (pdmp_of m) -> linear_params kinds m -> dmp_size (pdmp_of m) = Ok (length v) ->
  fas_set (fas_of (pdmp_of m)) v = (fs, Ok rest) -> wf pf (made m fs rest).
Proof.
  intros W Hsel Hlin Hv E. pose proof (wf_goal_fits _ _ W) as Hg.
  pose proof (set_fas m v fs rest Hsel Hlin Hg Hv E) as N.
  destruct (set_made m v Hsel Hg Hv) as (fs0 & rest0 & E0 & Em & Hl & Ef0). rewrite E in E0. injection E0 as <- <-.
  pose proof W as (W1 & W2 & W3 & W4 & W5 & W6 & W7 & W8 & W9 & W10 & W11 & W12 & W13 & W14 & W15 & W16 & W17 & W18 & W19).
  unfold wf, made. cbn [m_tau m_attr m_dim m_y0 m_req m_scaling m_amps m_spring m_goal m_damping m_phase m_gating].
  split; [exact W1|]. split. { unfold new_attr. destruct (mem "goal" (m_sel m)); [now apply Hl|exact W2]. }
  do 10 (split; [assumption|]). split.
  { unfold goal_with, goal_fits in *. destruct (m_goal m) as [[e| | |]|] eqn:Eg; cbn [opt_ok] in *; trivial.
    destruct W13 as [[Wa [Wb Wc]] Wd]. split; [|exact Wd]. split; [exact Wa|]. cbn [e_attr e_init e_alpha]. split; [|exact Wc].
    unfold new_goal, old_goal. rewrite Eg. destruct (mem "goal" (m_sel m)); cbn [andb]; [|exact Wb]. destruct (m_req m); cbn [negb]; [exact Wb|]. now rewrite Hl, Hg. }
  do 5 (split; [assumption|]). unfold fas_ok in *. cbn [m_fas m_dim]. unfold fas_of, pdmp_of in N. cbn [p_fas] in N. destruct (m_fas m) as [l|]; [|exact I]. cbn [option_map].
  destruct W19 as [Wl Wp].
  assert (Len : length fs = length l).
  { assert (A : forall k, nth_error l k = None <-> nth_error fs k = None).
    { intros k. specialize (N k). destruct (nth_error l k), (nth_error fs k); split; intros; try discriminate; trivial; contradiction. }
    pose proof (proj1 (A (length l)) (proj2 (nth_error_None l _) (le_n _))) as A1. pose proof (proj2 (A (length fs)) (proj2 (nth_error_None fs _) (le_n _))) as A2.
    apply nth_error_None in A1, A2. lia. }
  split.
  - destruct Wl as [->|Wl]; [left; destruct fs; [reflexivity|discriminate]|right; lia].
  - intros i f' Hi T ph. specialize (N i). rewrite Hi in N. destruct (nth_error l i) as [f|] eqn:Ei; [|contradiction]. destruct N as [D N].
    assert (T0 : is_trained f = true) by (unfold is_trained in *; now rewrite <- D). apply (N T0). now apply (Wp i f).
Qed.

(** ** two settings and one in between *)
Section Three.
Variables (m : dmp) (vx vy : list R) (t : R).
Hypothesis W : wf pf m.
Hypothesis Hsel : selectable_dmp (pdmp_of m).
Hypothesis Hlin : linear_params kinds m.
Hypothesis Hgo : goal_apart m.
Hypothesis Hx : dmp_size (pdmp_of m) = Ok (length vx).
Hypothesis Hy : dmp_size (pdmp_of m) = Ok (length vy).
Notation mix a b := (t * a + (1 - t) * b).

Lemma three : exists fx fy fz rx ry, let rz := between t rx ry in
  (fas_set (fas_of (pdmp_of m)) vx = (fx, Ok rx) /\ m_set_params m vx = (made m fx rx, Ok tt) /\ fas_of (pdmp_of (made m fx rx)) = fx) /\
  (fas_set (fas_of (pdmp_of m)) vy = (fy, Ok ry) /\ m_set_params m vy = (made m fy ry, Ok tt) /\ fas_of (pdmp_of (made m fy ry)) = fy) /\
  (fas_set (fas_of (pdmp_of m)) (between t vx vy) = (fz, Ok rz) /\ m_set_params m (between t vx vy) = (made m fz rz, Ok tt) /\ fas_of (pdmp_of (made m fz rz)) = fz) /\
  fas_mixed t fx fy fz /\ (length rx = length ry) /\ (mem "goal" (m_sel m) = true -> length (firstn (m_dim m) rx) = m_dim m /\ length (firstn (m_dim m) ry) = m_dim m) /\
  wf pf (made m fx rx) /\ wf pf (made m fy ry) /\ wf pf (made m fz rz).
Proof.
  pose proof (wf_goal_fits _ _ W) as Hg. assert (L : length vx = length vy) by congruence.
  assert (Hz : dmp_size (pdmp_of m) = Ok (length (between t vx vy))) by (rewrite (between_length t vx vy (length vx)) by auto; exact Hx).
  destruct (set_made m vx Hsel Hg Hx) as (fx & rx & Ex & Mx & Lx & Fx). destruct (set_made m vy Hsel Hg Hy) as (fy & ry & Ey & My & Ly & Fy).
  destruct (set_made m _ Hsel Hg Hz) as (fz & rz & Ez & Mz & Lz & Fz).
  destruct (fas_set_blend t _ vx vy fx fy rx ry L Ex Ey) as (fz' & Ez' & Lr & FM). rewrite Ez in Ez'. injection Ez' as <- ->.
  exists fx, fy, fz, rx, ry. cbv zeta. split; [auto|]. split; [auto|]. split; [auto|]. split; [exact FM|]. split; [exact Lr|]. split; [auto|].
  split; [exact (made_wf m vx fx rx W Hsel Hlin Hx Ex)|]. split; [exact (made_wf m vy fy ry W Hsel Hlin Hy Ey)|exact (made_wf m _ fz _ W Hsel Hlin Hz Ez)].
Qed.
Lemma pred_mix fx fy fz rx ry ph i : fas_set (fas_of (pdmp_of m)) vx = (fx, Ok rx) -> fas_set (fas_of (pdmp_of m)) vy = (fy, Ok ry) ->
  fas_mixed t fx fy fz -> fas_of (pdmp_of (made m fx rx)) = fx -> fas_of (pdmp_of (made m fy ry)) = fy -> fas_of (pdmp_of (made m fz (between t rx ry))) = fz ->
  pred_val pf (made m fz (between t rx ry)) ph i = mix (pred_val pf (made m fx rx) ph i) (pred_val pf (made m fy ry) ph i).
Proof.
  intros Ex Ey FM Fx Fy Fz. unfold pred_val. rewrite Fx, Fy, Fz. pose proof (wf_goal_fits _ _ W) as Hg.
  pose proof (fas_mixed_nth t _ _ _ FM i) as M. pose proof (set_fas m vx fx rx Hsel Hlin Hg Hx Ex i) as Nx. pose proof (set_fas m vy fy ry Hsel Hlin Hg Hy Ey i) as Ny.
  destruct (nth_error fx i) as [gx|], (nth_error fy i) as [gy|], (nth_error fz i) as [gz|]; try contradiction; [|ring].
  destruct (nth_error (fas_of (pdmp_of m)) i) as [f|] eqn:Ei; [|contradiction].
  destruct M as (D1 & D2 & B), Nx as [Dx Nx], Ny as [Dy Ny]. 
  assert (Tx : is_trained gx = is_trained f) by (unfold is_trained; now rewrite Dx). assert (Ty : is_trained gy = is_trained f) by (unfold is_trained; now rewrite Dy).
  assert (Tz : is_trained gz = is_trained f) by (unfold is_trained; now rewrite D2, Dx). rewrite Tx, Ty, Tz. destruct (is_trained f) eqn:T; [|ring].
  destruct (Nx eq_refl) as (Px & Ux & Kx), (Ny eq_refl) as (Py & Uy & Ky).
  assert (Q : exists v, pf i (f_model f) ph = Ok v).
  { pose proof W as (_ & _ & _ & _ & _ & _ & _ & _ & _ & _ & _ & _ & _ & _ & _ & _ & _ & _ & W19). unfold fas_ok in W19. unfold fas_of, pdmp_of in Ei. cbn [p_fas] in Ei.
    destruct (m_fas m) as [l|]; [|now destruct i]. destruct W19 as [_ Wp]. now apply (Wp i f). }
  destruct (Kx ph Q) as [ax Ax]. destruct (Ky ph Q) as [ay Ay].
  rewrite Ax, Ay. rewrite (predict_blend ex kinds i t gx gy gz ph ax ay Px Py B); [reflexivity| |exact Ax|exact Ay].
  intros name Hn. now rewrite (Ux name Hn), (Uy name Hn).
Qed.
Lemma attr_mix rx ry i : (mem "goal" (m_sel m) = true -> length (firstn (m_dim m) rx) = m_dim m /\ length (firstn (m_dim m) ry) = m_dim m) -> (i < m_dim m)%nat ->
  nth i (new_attr m (between t rx ry)) 0 = mix (nth i (new_attr m rx) 0) (nth i (new_attr m ry) 0).
Proof.
  intros L Hi. unfold new_attr. destruct (mem "goal" (m_sel m)); [|ring]. destruct (L eq_refl). rewrite firstn_between. now apply (between_nth t _ _ (m_dim m)).
Qed.
Lemma ana_mix rx ry ts ps pds : (mem "goal" (m_sel m) = true -> length (firstn (m_dim m) rx) = m_dim m /\ length (firstn (m_dim m) ry) = m_dim m) ->
  forall px pdx py pdy, goal_with m (new_goal m rx) <> None ->
  match goal_with m (new_goal m rx) with Some g => sub_ana g ts = Ok (px, pdx) | None => True end ->
  match goal_with m (new_goal m ry) with Some g => sub_ana g ts = Ok (py, pdy) | None => True end ->
  match goal_with m (new_goal m (between t rx ry)) with Some g => sub_ana g ts = Ok (ps, pds) | None => True end ->
  forall k i, (k < length ts)%nat -> (i < m_dim m)%nat -> at_ ps k i = mix (at_ px k i) (at_ py k i).
Proof.
  intros L px pdx py pdy. pose proof (wf_goal_fits _ _ W) as Hg. pose proof W as (_ & _ & _ & _ & _ & _ & _ & _ & _ & _ & _ & _ & W13 & _).
  unfold goal_fits in Hg. unfold goal_with. destruct (m_goal m) as [[e| | |]|] eqn:Eg; [| | | |intros H; now destruct H].
  2,3,4: intros _ E1 E2 E3; rewrite E1 in E2, E3; injection E2 as <- <-; injection E3 as <- <-; intros; ring.
  intros _ E1 E2 E3 k i Hk Hi. cbn [opt_ok] in W13. destruct W13 as [[Wa [Wb Wc]] Wd]. cbn [sub_ana] in E1, E2, E3. cbn [sub_tau] in Wa.
  assert (LL : forall r, (mem "goal" (m_sel m) = true -> length (firstn (m_dim m) r) = m_dim m) -> length (new_goal m r) = length (e_init e)).
  { intros r Lr. unfold new_goal, old_goal. rewrite Eg. destruct (mem "goal" (m_sel m)); cbn [andb]; [|exact Wb]. destruct (m_req m); cbn [negb]; [exact Wb|]. now rewrite Lr, Hg. }
  assert (Lx : length (new_goal m rx) = length (e_init e)) by (apply LL; intros H; now destruct (L H)).
  assert (Ly : length (new_goal m ry) = length (e_init e)) by (apply LL; intros H; now destruct (L H)).
  assert (Z : new_goal m (between t rx ry) = between t (new_goal m rx) (new_goal m ry)).
  { unfold new_goal. destruct (mem "goal" (m_sel m) && negb (m_req m))%bool; [apply firstn_between|now rewrite between_self]. }
  assert (Lz : length (new_goal m (between t rx ry)) = length (e_init e)) by (rewrite Z; now apply between_length).
  rewrite e_ana_ok in E1, E2, E3 by assumption. injection E1 as <- _. injection E2 as <- _. injection E3 as <- _.
  unfold at_. rewrite !(nth_map_lt _ _ _ 0) by exact Hk. unfold eX. cbn [e_init e_attr e_alpha e_tau].
  rewrite !(nth_map_lt _ _ _ 0%nat) by (rewrite seq_length; lia). rewrite !seq_nth by lia. cbn [Nat.add]. rewrite Z, (between_nth t _ _ (length (e_init e))) by (trivial; lia). ring.
Qed.

(** the rollout *)
Lemma rollout_mix fx fy fz rx ry ts qx qy qz : let mz := made m fz (between t rx ry) in
  fas_set (fas_of (pdmp_of m)) vx = (fx, Ok rx) -> fas_set (fas_of (pdmp_of m)) vy = (fy, Ok ry) ->
  fas_mixed t fx fy fz -> fas_of (pdmp_of (made m fx rx)) = fx -> fas_of (pdmp_of (made m fy ry)) = fy -> fas_of (pdmp_of mz) = fz ->
  (mem "goal" (m_sel m) = true -> length (firstn (m_dim m) rx) = m_dim m /\ length (firstn (m_dim m) ry) = m_dim m) ->
  rollout_spec pf (made m fx rx) ts false qx -> rollout_spec pf (made m fy ry) ts false qy -> rollout_spec pf mz ts false qz ->
  forall k, (k < length ts)%nat -> forall i, (i < m_dim m)%nat ->
    yv (a_xs qz) k i = mix (yv (a_xs qx) k i) (yv (a_xs qy) k i) /\
    zv (m_dim m) (a_xs qz) k i = mix (zv (m_dim m) (a_xs qx) k i) (zv (m_dim m) (a_xs qy) k i) /\
    zv (m_dim m) (a_xds qz) k i = mix (zv (m_dim m) (a_xds qx) k i) (zv (m_dim m) (a_xds qy) k i).
Proof.
  intros mz Ex Ey FM Fx Fy Fz L Sx Sy Sz.
  pose proof (fun ph i => pred_mix fx fy fz rx ry ph i Ex Ey FM Fx Fy Fz) as PM. fold mz in PM.
  destruct Sx as (_ & _ & _ & _ & _ & (ppx & ppdx & Phx & Hpx) & (pgx & pgdx & Gax & Hax) & Gx & Cx & Fox & Ix & Dx & Stx).
  destruct Sy as (_ & _ & _ & _ & _ & (ppy & ppdy & Phy & Hpy) & (pgy & pgdy & Gay & Hay) & Gy & Cy & Foy & Iy & Dy & Sty).
  destruct Sz as (_ & _ & _ & _ & _ & (ppz & ppdz & Phz & Hpz) & (pgz & pgdz & Gaz & Haz) & Gz & Cz & Foz & Iz & Dz & Stz).
  unfold mz in *. cbn [made m_dim m_phase m_gating m_damping m_spring m_tau m_goal m_attr] in *. fold mz in PM.
  rewrite Phx in Phy, Phz. injection Phy as <- <-. injection Phz as <- <-. rewrite Gax in Gay, Gaz. injection Gay as <- <-. injection Gaz as <- <-.
  set (n := m_dim m) in *.
  (* phase and gating are the same, and so is the damping *)
  assert (Pv : forall k, (k < length ts)%nat -> pv n (a_xs qy) k = pv n (a_xs qx) k /\ pv n (a_xs qz) k = pv n (a_xs qx) k).
  { intros k Hk. destruct (Hpx k Hk), (Hpy k Hk), (Hpz k Hk). split; congruence. }
  assert (Av : forall k, (k < length ts)%nat -> av n (a_xs qy) k = av n (a_xs qx) k /\ av n (a_xs qz) k = av n (a_xs qx) k).
  { intros k Hk. destruct (Hax k Hk), (Hay k Hk), (Haz k Hk). split; congruence. }
  assert (Cv : forall k i, (k < length ts)%nat -> (i < n)%nat -> cv n (a_xs qy) k i = cv n (a_xs qx) k i /\ cv n (a_xs qz) k i = cv n (a_xs qx) k i).
  { intros k i Hk Hi. destruct (m_damping m) as [g|].
    - destruct Cx as (p1 & p1' & E1 & H1), Cy as (p2 & p2' & E2 & H2), Cz as (p3 & p3' & E3 & H3). rewrite E1 in E2, E3. injection E2 as <- <-. injection E3 as <- <-.
      destruct (H1 k i Hk Hi), (H2 k i Hk Hi), (H3 k i Hk Hi). split; congruence.
    - destruct (Cx k i Hk Hi), (Cy k i Hk Hi), (Cz k i Hk Hi). split; congruence. }
  assert (Gv : forall k i, (k < length ts)%nat -> (i < n)%nat -> gv n (a_xs qz) k i = mix (gv n (a_xs qx) k i) (gv n (a_xs qy) k i)).
  { intros k i Hk Hi. pose proof (ana_mix rx ry ts) as AM.
    destruct (goal_with m (new_goal m rx)) as [g1|] eqn:E1, (goal_with m (new_goal m ry)) as [g2|] eqn:E2, (goal_with m (new_goal m (between t rx ry))) as [g3|] eqn:E3;
      try (exfalso; clear - E1 E2 E3; unfold goal_with in *; destruct (m_goal m) as [[]|]; discriminate).
    - destruct Gx as (p1 & p1' & A1 & H1), Gy as (p2 & p2' & A2 & H2), Gz as (p3 & p3' & A3 & H3).
      destruct (H1 k i Hk Hi) as [-> _], (H2 k i Hk Hi) as [-> _], (H3 k i Hk Hi) as [-> _].
      apply (AM p3 p3' L p1 p1' p2 p2'); trivial. discriminate.
    - destruct (Gx k i Hk Hi) as [-> _], (Gy k i Hk Hi) as [-> _], (Gz k i Hk Hi) as [-> _]. now apply attr_mix. }
  assert (Tv : forall k i, (k < length ts)%nat -> (i < n)%nat -> target (made m fz (between t rx ry)) (gv n (a_xs qz) k i) i =
       mix (target (made m fx rx) (gv n (a_xs qx) k i) i) (target (made m fy ry) (gv n (a_xs qy) k i) i)).
  { intros k i Hk Hi. unfold target, made. cbn [m_req m_y0 m_attr]. destruct (m_req m) eqn:Er; [|now apply Gv].
    rewrite (attr_mix rx ry i L Hi).
    assert (Same : gv n (a_xs qy) k i = gv n (a_xs qx) k i \/ m_goal m = None).
    { destruct (m_goal m) as [g|] eqn:Eg; [left|now right].
      assert (Q : forall r, goal_with m (new_goal m r) = Some g).
      { intros r. unfold new_goal. rewrite Er. rewrite Bool.andb_false_r, goal_with_old. exact Eg. }
      rewrite !Q in *. destruct Gx as (p1 & p1' & A1 & H1), Gy as (p2 & p2' & A2 & H2). rewrite A1 in A2. injection A2 as <- <-.
      destruct (H1 k i Hk Hi) as [-> _], (H2 k i Hk Hi) as [-> _]. reflexivity. }
    destruct Same as [Same|Eg]; [rewrite (Gv k i Hk Hi), Same; ring|].
    destruct (mem "goal" (m_sel m)) eqn:Em.
    { apply mem_In in Em. destruct (Hgo Em) as [_ F]. rewrite (F Eg) in Er. discriminate. }
    assert (Q : forall r, goal_with m (new_goal m r) = None) by (intros r; unfold goal_with; now rewrite Eg). rewrite !Q in *.
    destruct (Gx k i Hk Hi) as [-> _], (Gy k i Hk Hi) as [-> _], (Gz k i Hk Hi) as [-> _]. unfold new_attr. rewrite Em. ring. }
  assert (Fa : forall k i, (k < length ts)%nat -> (i < n)%nat -> at_ (a_forcing qz) k i = mix (at_ (a_forcing qx) k i) (at_ (a_forcing qy) k i)).
  { intros k i Hk Hi. destruct (Fox k i Hk Hi) as [F1 ->], (Foy k i Hk Hi) as [F2 ->], (Foz k i Hk Hi) as [F3 ->]. rewrite F1, F2, F3.
    destruct (Pv k Hk) as [-> ->], (Av k Hk) as [-> ->]. rewrite PM.
    assert (Fe : factor (made m fx rx) i = factor (made m fz (between t rx ry)) i /\ factor (made m fy ry) i = factor (made m fz (between t rx ry)) i).
    { unfold factor, made. cbn [m_scaling m_attr m_y0 m_amps]. destruct (m_scaling m) eqn:Es; [auto| |auto].
      unfold new_attr. destruct (mem "goal" (m_sel m)) eqn:Em; [|auto]. apply mem_In in Em. destruct (Hgo Em) as [F _]. now destruct F. }
    destruct Fe as [-> ->]. unfold mz. ring. }
  assert (Step : forall k, (k < length ts)%nat -> forall i, (i < n)%nat -> yv (a_xs qz) k i = mix (yv (a_xs qx) k i) (yv (a_xs qy) k i) ->
    zv n (a_xs qz) k i = mix (zv n (a_xs qx) k i) (zv n (a_xs qy) k i) -> zv n (a_xds qz) k i = mix (zv n (a_xds qx) k i) (zv n (a_xds qy) k i)).
  { intros k Hk i Hi Y Z. destruct (Dx k i Hk Hi) as [_ ->], (Dy k i Hk Hi) as [_ ->], (Dz k i Hk Hi) as [_ ->].
    destruct (Cv k i Hk Hi) as [-> ->]. rewrite (Tv k i Hk Hi), (Fa k i Hk Hi), Y, Z. unfold accel, made. cbn [m_spring m_tau]. unfold Rdiv. ring. }
  induction k as [|k IH]; intros Hk i Hi.
  - destruct (Ix i Hi) as [Y1 Z1], (Iy i Hi) as [Y2 Z2], (Iz i Hi) as [Y3 Z3].
    assert (Y : yv (a_xs qz) 0 i = mix (yv (a_xs qx) 0 i) (yv (a_xs qy) 0 i)) by (rewrite Y1, Y2, Y3; ring).
    assert (Z : zv n (a_xs qz) 0 i = mix (zv n (a_xs qx) 0 i) (zv n (a_xs qy) 0 i)) by (rewrite Z1, Z2, Z3; ring).
    split; [exact Y|]. split; [exact Z|]. now apply Step.
  - destruct (IH ltac:(lia) i Hi) as (Y0 & Z0 & A0).
    destruct (Stx k i Hk Hi) as [Y1 Z1], (Sty k i Hk Hi) as [Y2 Z2], (Stz k i Hk Hi) as [Y3 Z3].
    destruct (Dx k i ltac:(lia) Hi) as [V1 _], (Dy k i ltac:(lia) Hi) as [V2 _], (Dz k i ltac:(lia) Hi) as [V3 _].
    assert (Y : yv (a_xs qz) (S k) i = mix (yv (a_xs qx) (S k) i) (yv (a_xs qy) (S k) i)) by (rewrite Y1, Y2, Y3, V1, V2, V3, Y0, Z0; unfold Rdiv; ring).
    assert (Z : zv n (a_xs qz) (S k) i = mix (zv n (a_xs qx) (S k) i) (zv n (a_xs qy) (S k) i)) by (rewrite Z1, Z2, Z3, Z0, A0; ring).
    split; [exact Y|]. split; [exact Z|]. now apply Step.
Qed.
End Three.
End E.
