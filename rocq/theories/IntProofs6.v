(** Numerical integration of a DMP: the error is proportional to the step size. *)
From Coq Require Import String.
From Verif Require Import Base BaseLemmas DynModel DynSpec DynProofs DynProofs3 DynProofs5 ParamModel DmpModel DmpSpec DmpSpec2 DmpProofs DmpProofs3 DmpProofs7 DmpProofs13 DmpProofs14 DmpProofs19 SchedModel IntModel IntSpec IntProofs IntProofs2 IntProofs3 IntProofs4 IntProofs5.
Open Scope R_scope.

(** integrating a total vector field, row by row *)
Lemma integrate_rows f n F me x0 t ts : computes f n F -> length x0 = n -> exists xs xds,
  integrate f n me x0 (t :: ts) = Ok (xs, xds) /\ length xs = S (length ts) /\ nth 0 xs [] = x0 /\
  (forall k, (k < S (length ts))%nat -> length (nth k xs []) = n) /\
  forall k, (S k < S (length ts))%nat -> nth (S k) xs [] = step F me (nth (S k) (t :: ts) 0 - nth k (t :: ts) 0) (nth k xs []).
Proof.
  intros HF Hx. destruct (integrate_total f n me F x0 t ts HF Hx) as (xs & xds & E & F1 & _). exists xs, xds. split; [exact E|].
  destruct (integrate_spec _ _ _ _ _ _ _ E) as (L1 & _ & E0 & _ & HS). cbn [length] in L1, HS. split; [exact L1|]. split; [exact E0|].
  assert (Ll : forall k, (k < S (length ts))%nat -> length (nth k xs []) = n).
  { intros k Hk. rewrite Forall_forall in F1. apply F1, nth_In. lia. }
  split; [exact Ll|]. intros k Hk. specialize (HS k Hk). specialize (Ll k ltac:(lia)). destruct me; cbn [int_step step] in *.
  - rewrite (step_rk_ok f n F HF) in HS by trivial. now injection HS as <- _.
  - rewrite (step_euler_ok f n F HF) in HS by trivial. now injection HS as <- _.
Qed.
(** integrate_start returns the rate of its state *)
Lemma start_rate pf m m1 x xd : m_start pf m None = Ok (m1, x, xd) -> rate_of pf m x = Ok xd.
Proof.
  unfold m_start. cbn [bind]. cbv zeta.
  destruct (match m_goal m with Some g => _ | None => _ end) as [g0|]; [|discriminate]. cbn [bind].
  destruct (put_ix (ix_goal m) g0 _) as [x0|]; [|discriminate]. cbn [bind]. destruct (get_ix (ix_goal m) x0) as [xg|]; [|discriminate]. cbn [bind].
  destruct (scale_goal m xg) as [tg|]; [|discriminate]. cbn [bind].
  destruct (d_set_attr (m_spring m) tg) as [s|] eqn:Es; [|discriminate]. cbn [bind].
  assert (Es' : s = Dsys (d_tau (m_spring m)) (d_init (m_spring m)) tg (d_damp (m_spring m)) (d_spring (m_spring m)) (d_mass (m_spring m)) (d_dimy (m_spring m))).
  { unfold d_set_attr in Es. destruct (Nat.eqb _ _); [now injection Es as <-|discriminate]. }
  clear Es. subst s. set (s := Dsys _ _ tg _ _ _ _).
  assert (H2 : forall x' s', match m_damping m with
      | Some ds => let* _ := sub_diffeq ds (sub_init ds) in let* x := put_ix (ix_damping m) (sub_init ds) x0 in
                   let* xda := get_ix (ix_damping m) x in Ok (x, d_set_damp s (PVec xda))
      | None => let* full_damp := full (m_dim m) (d_damp s) in let* x := put_ix (ix_damping m) full_damp x0 in Ok (x, s) end = Ok (x', s') ->
      exists p, s' = d_set_damp s p /\ (p = d_damp (m_spring m) \/ (m_damping m <> None /\ par_ok p (m_dim m)))).
  { intros x' s'. destruct (m_damping m) as [ds|].
    - destruct (sub_diffeq ds (sub_init ds)); [|discriminate]. cbn [bind]. destruct (put_ix (ix_damping m) _ _) as [x1|]; [|discriminate]. cbn [bind].
      destruct (get_ix (ix_damping m) x1) as [xda|] eqn:Ex; [|discriminate]. cbn [bind]. intros E. injection E as _ <-. exists (PVec xda).
      split; [reflexivity|right]. split; [discriminate|]. cbn.
      unfold get_ix, ix_damping in Ex. cbn [fst snd] in Ex. destruct (Nat.leb_spec (m_dim m + m_dim m + d_goal m + 1 + 1 + m_dim m) (length x1)); [|discriminate].
      injection Ex as <-. rewrite firstn_length_le; [reflexivity|]. rewrite skipn_length. lia.
    - destruct (full _ _); [|discriminate]. cbn [bind]. destruct (put_ix _ _ _); [|discriminate]. cbn [bind]. intros E. injection E as _ <-.
      exists (d_damp (m_spring m)). split; [reflexivity|now left]. }
  destruct (match m_damping m with Some ds => _ | None => _ end) as [[x1 s1]|]; [|discriminate]. destruct (H2 _ _ eq_refl) as (p & -> & Hp). cbn [bind].
  destruct (d_diffeq _ _); [|discriminate]. cbn [bind]. destruct (put_ix _ _ _); [|discriminate]. cbn [bind].
  destruct (sub_diffeq _ _); [|discriminate]. cbn [bind]. destruct (put_ix _ _ _); [|discriminate]. cbn [bind].
  destruct (sub_diffeq _ _); [|discriminate]. cbn [bind]. destruct (put_ix _ _ _) as [x2|]; [|discriminate]. cbn [bind].
  match goal with |- context [m_diffeq pf ?mm x2] => assert (T : touched m mm) end.
  { exists tg, p, (m_goal m). split; [reflexivity|]. split; [exact Hp|]. destruct (m_goal m); [now left|trivial]. }
  rewrite (touch_diffeq pf m _ x2 T). destruct (m_diffeq pf m x2) as [[m2 xd2]|] eqn:E; [|discriminate]. cbn [bind fst snd]. intros H. injection H as _ <- <-.
  unfold rate_of. rewrite E. reflexivity.
Qed.
(** a step size for which everything stays in the box *)
Lemma small_step M c E h : 0 <= M -> 0 <= c -> 0 <= E -> 0 <= h -> h <= / (2 * (M + c + E + 1)) -> h * M <= 1/2 /\ c * h <= 1/2 /\ E * h <= 1/2.
Proof.
  intros HM Hc HE Hh Hl. assert (P : 0 < M + c + E + 1) by lra.
  assert (Q : h * (M + c + E + 1) <= 1/2).
  { replace (1/2) with (/ (2 * (M + c + E + 1)) * (M + c + E + 1)) by (field; lra). apply Rmult_le_compat_r; lra. }
  pose proof (Rmult_le_pos _ _ Hh HM). pose proof (Rmult_le_pos _ _ Hh Hc). pose proof (Rmult_le_pos _ _ Hh HE). lra.
Qed.

Section Main.
Variable pf : nat -> list (string * pval) -> R -> res R.
Variable m : dmp.
Hypothesis W : wf pf m.
Hypothesis Sy : synced m.
Hypothesis Pg : plain_goal m.
Hypothesis I1 : integrable (m_phase m).
Hypothesis I2 : integrable (m_gating m).
Hypothesis I3 : match m_goal m with Some g => integrable g | None => True end.
Hypothesis I4 : match m_damping m with Some g => integrable g | None => True end.
Hypothesis Pl : forall i, (i < m_dim m)%nat -> lipschitz (fun ph => pred_val pf m ph i).
Notation N := (dim_x m).
Lemma integrable_regular s : integrable s -> regular s 0.
Proof. destruct s; cbn; trivial. lra. Qed.
Lemma regular_start : dmp_regular m 0.
Proof.
  split; [now apply integrable_regular|]. split; [now apply integrable_regular|]. split.
  - destruct (m_goal m); [now apply integrable_regular|trivial].
  - destruct (m_damping m); [now apply integrable_regular|trivial].
Qed.
Lemma dmp_error T : exists C h0, 0 <= C /\ 0 < h0 /\ forall me h ts, sampling T h ts -> h <= h0 -> exists m' xs xds r,
  m_integrate pf me m ts = Ok (m', (xs, xds)) /\ ana pf m ts false = Ok r /\ within (C * h) N xs (a_xs r).
Proof.
  assert (HN : N = (4 * m_dim m + 2)%nat) by (unfold dim_x; lia).
  destruct (all_bounds pf m W Pg I1 I2 I3 I4 Pl T) as (B & C1 & PB & PC1 & HBC).
  destruct (vlip_all N ltac:(lia) (fieldc pf m) (fun j => negb (irr m j)) (B + 1)) as (L & PL & HL).
  { intros j Hj Hu. apply fieldc_lip; trivial. now destruct (irr m j). }
  destruct (bound_all N ltac:(lia) (fieldc pf m) (B + 1)) as (M & PM & HM).
  { intros j Hj. apply fieldc_bound; trivial. }
  destruct (max_all (fun j c => irr m j = true -> forall h, fst (own m j) = Some (SubT h) -> / t_tau h <= c)) with (N := N) as (c & Pc & Hc).
  { intros j a b Hab H H1 h H2. specialize (H H1 h H2). lra. }
  { intros j Hj. destruct (fst (own m j)) as [[| | |h]|] eqn:E; try (exists 0; split; [lra|]; intros _ h H; discriminate).
    exists (Rabs (/ t_tau h)). split; [apply Rabs_pos|]. intros _ h' H. injection H as <-. apply Rle_abs. }
  set (T' := Rabs T). set (E := (C1 + L * M + L * c) * T' * exp (L * T')).
  assert (PK : 0 <= C1 + L * M + L * c) by (pose proof (Rmult_le_pos _ _ PL PM); pose proof (Rmult_le_pos _ _ PL Pc); lra).
  assert (PE : 0 <= E) by (unfold E; apply Rmult_le_pos; [apply Rmult_le_pos; [trivial|apply Rabs_pos]|left; apply exp_pos]).
  exists (E + c), (/ (2 * (M + c + E + 1))). split; [lra|]. split; [apply Rinv_0_lt_compat; lra|]. intros me h ts Hg Hh0.
  pose proof Hg as (Hne & Hh & H0 & HT & Hst). destruct (small_step M c E h PM Pc PE Hh Hh0) as (S1 & S2 & S3).
  destruct ts as [|t ts]; [contradiction|]. cbn [nth] in H0. subst t.
  destruct (ana_total pf m (0 :: ts) false W Hne) as (r & Er & Hs). destruct Hs as (Lr & _ & _ & _ & Hl & _).
  destruct (start_first pf m ts false r W Sy Pg regular_start Er) as (m1 & xd & Es & _).
  assert (Lx0 : length (nth 0 (a_xs r) []) = N) by (apply (Hl 0%nat); cbn; lia).
  pose proof (field_computes pf m W Sy I1 I2 I3 I4) as FC.
  destruct (integrate_rows _ _ _ me _ 0 ts FC Lx0) as (xs & xds & Ei & Lxs & X0 & Xl & Xs).
  pose proof (integrate_same pf me m (0 :: ts) m1 _ xd Es (start_rate _ _ _ _ _ Es)) as Sm. rewrite Ei in Sm. unfold same_as in Sm.
  destruct (m_integrate pf me m (0 :: ts)) as [[m' sol]|]; [|contradiction]. destruct Sm as [-> _].
  exists m', xs, xds, r. split; [reflexivity|]. split; [exact Er|]. split; [rewrite Lxs, Lr; reflexivity|]. intros k i Hk Hi. rewrite Lxs in Hk.
  pose proof (grid_mono T h _ Hg) as GM.
  apply (global_bound N (field pf m)) with (irr := irr m) (B := B) (L := L) (M := M) (X := fun k => nth k (a_xs r) []) (Z := fun k => nth k xs [])
    (t := fun k => nth k (0 :: ts) 0) (N := length ts) (meth := me) (h := h) (c := c) (C1 := C1) (T := T'); trivial.
  - intros x _. apply field_length.
  - intros x y e j Hx Hy He Hj Hr. rewrite !nth_field by trivial. apply HL; trivial. now rewrite Hr.
  - intros x j Hx Hj. rewrite nth_field by trivial. now apply HM.
  - intros k' Hk'. split; [apply Hl; cbn; lia|]. intros j Hj. destruct (HBC j Hj) as [Hb _]. apply (Hb h (0 :: ts) r k' Hg Er). cbn; lia.
  - intros k' Hk'. apply Hst. cbn; lia.
  - change (nth (length ts) (0 :: ts) 0 - 0 <= T'). destruct (GM (length ts) ltac:(cbn; lia)) as [_ G2]. pose proof (Rle_abs T). unfold T'. lra.
  - intros k' Hk'. apply Xs. lia.
  - intros k' j Hk' Hj Hr. rewrite nth_field by trivial. destruct (HBC j Hj) as [_ Hd]. apply (Hd h (0 :: ts) r k' Hg Er); [cbn; lia|exact Hr].
  - intros k' j Hk' Hj Hr.
    assert (Hj2 : (2 * m_dim m <= j)%nat) by (unfold irr in Hr; destruct (Nat.ltb_spec j (2 * m_dim m)); [discriminate|trivial]).
    destruct (closed pf m W I1 I2 I3 I4 j (conj Hj2 Hj)) as (u & U1 & _ & U3). destruct (U3 Hr) as (s & Eo & Pt & Enew & Eu).
    assert (Cs : / t_tau s <= c) by (apply (Hc j Hj Hr); now rewrite Eo).
    assert (Ef : forall x, fieldc pf m j x = rates (SubT (new_time (t_tau s) (t_down s))) 0 (nth j x 0)).
    { intros x. unfold fieldc. rewrite (proj2 (Nat.ltb_ge j (m_dim m))), (proj2 (Nat.ltb_ge j (2 * m_dim m))) by lia. rewrite Eo. cbn [fst snd orate]. now rewrite <- Enew. }
    pose proof (time_error (t_tau s) (t_down s) Pt me (fun k => nth j (nth k xs []) 0) (fun k => nth k (0 :: ts) 0) (length ts) h) as TE.
    refine (Rle_trans _ (/ t_tau s * h) _ _ _); [|now apply Rmult_le_compat_r].
    pose proof (U1 (0 :: ts) r Er Hne k' ltac:(cbn; lia)) as V. unfold at_ in V. rewrite V, Eu. apply TE; trivial.
    + rewrite X0. pose proof (U1 (0 :: ts) r Er Hne 0%nat ltac:(cbn; lia)) as V0. unfold at_ in V0. rewrite V0, Eu. cbn [nth]. unfold Rdiv. rewrite Rmult_0_l.
      destruct (t_down s); unfold Rmax, Rmin; [destruct (Rle_dec 0 (1 - 0))|destruct (Rle_dec 1 0)]; lra.
    + intros k2 Hk2. apply Hst. cbn; lia.
    + intros k2 Hk2. rewrite Xs by lia. apply (step_comp N); [intros; apply field_length|trivial| |apply Xl; lia].
      intros x Hx. rewrite nth_field by trivial. apply Ef.
  - replace ((C1 + L * M + L * c) * h * T' * exp (L * T')) with (E * h) by (unfold E; ring). exact S3.
  - lia.
Qed.
End Main.

(** ** a single subsystem *)
Lemma sub_error s T : sub_ok s -> integrable s -> exists C h0, 0 <= C /\ 0 < h0 /\ forall me h ts, sampling T h ts -> h <= h0 -> exists xs xds ys yds,
  integrate (sub_diffeq s) (sub_dim s) me (sub_init s) ts = Ok (xs, xds) /\ sub_ana s ts = Ok (ys, yds) /\ within (C * h) (sub_dim s) xs ys.
Proof.
  intros Ho Hi. set (n := sub_dim s). set (F := fun x => map (fun i => rates s i (nth i x 0)) (seq 0 n)).
  assert (FL : forall x, length (F x) = n) by (intros x; unfold F; now rewrite map_length, seq_length).
  assert (NF : forall x i, (i < n)%nat -> nth i (F x) 0 = rates s i (nth i x 0)) by (intros x i H; unfold F; now rewrite nth_map_seq).
  assert (FC : computes (sub_diffeq s) n F) by (intros x Hx; split; [now apply sub_rates|apply FL]).
  destruct (timed s) eqn:Et.
  - destruct s as [| | |h]; try discriminate. destruct Ho as [Ht Hs]. cbn [sub_tau integrable] in *.
    assert (Eh : h = new_time (t_tau h) (t_down h)) by (destruct h as [a b c]; cbn in *; now rewrite Hs).
    assert (N1 : n = 1%nat) by (unfold n, sub_dim; cbn [sub_init]; now rewrite Hs).
    exists (/ t_tau h), 1. pose proof (Rinv_0_lt_compat _ Hi). split; [lra|]. split; [lra|]. intros me d ts Hg Hd. pose proof Hg as (Hne & Hd0 & H0 & _ & Hst).
    destruct ts as [|t ts]; [contradiction|]. cbn [nth] in H0. subst t. cbn [sub_diffeq sub_init sub_ana].
    assert (Lx : length (t_init h) = n) by reflexivity.
    destruct (integrate_rows _ _ _ me (t_init h) 0 ts FC Lx) as (xs & xds & Ei & Lxs & X0 & Xl & Xs). cbn [sub_diffeq] in Ei.
    exists xs, xds, (map (fun t => [if t_down h then Rmax 0 (1 - t / t_tau h) else Rmin 1 (t / t_tau h)]) (0 :: ts)). eexists.
    split; [exact Ei|]. split; [rewrite Eh at 1; rewrite t_ana_ok by trivial; reflexivity|]. split; [now rewrite map_length|].
    intros k i Hk Hlt. rewrite Lxs in Hk. assert (i = 0%nat) by lia. subst i.
    rewrite (nth_map_l _ _ _ 0) by (cbn; lia). match goal with |- context [nth 0 [?x] 0] => change (nth 0 [x] 0) with x end.
    pose proof (time_error (t_tau h) (t_down h) Hi me (fun k => nth 0 (nth k xs []) 0) (fun k => nth k (0 :: ts) 0) (length ts) d) as TE. apply TE; trivial.
    + cbn beta. rewrite X0, Hs. cbn [nth]. destruct (t_down h); lra.
    + intros k2 Hk2. apply Hst. cbn; lia.
    + intros k2 Hk2. rewrite Xs by lia. apply (step_comp n); [intros; apply FL|lia| |apply Xl; lia]. intros x Hx. rewrite NF by lia. now rewrite <- Eh.
    + lia.
  - destruct (sub_smooth s Ho Hi Et) as (X & Xd & EA & EX0 & LX & HD). fold n in LX, HD.
    assert (OS : forall i, (i < n)%nat -> exists c, 0 <= c /\ ((forall t, 0 <= t <= T -> Rabs (comp X i t) <= c) /\
      forall t d, 0 <= t -> 0 <= d -> t + d <= T -> Rabs (comp X i (t + d) - comp X i t - d * rates s i (comp X i t)) <= c * (d * d))).
    { intros i Hlt. destruct (one_step (comp X i) (rates s i) T (HD i Hlt) (rates_lip s i Et)) as (B & C & PB & PC & HB & HC). exists (B + C). split; [lra|]. split.
      - intros t Ht. specialize (HB t Ht). lra.
      - intros t d H1 H2 H3. refine (Rle_trans _ _ _ (HC t d H1 H2 H3) _). apply Rmult_le_compat_r; [apply Rle_0_sqr|lra]. }
    destruct (max_all (fun i c => (forall t, 0 <= t <= T -> Rabs (comp X i t) <= c) /\
      forall t d, 0 <= t -> 0 <= d -> t + d <= T -> Rabs (comp X i (t + d) - comp X i t - d * rates s i (comp X i t)) <= c * (d * d))) with (N := n) as (B & PB & HB).
    { intros j a b Hab [H1 H2]. split; [intros t Ht; specialize (H1 t Ht); lra|]. intros t d Q1 Q2 Q3. refine (Rle_trans _ _ _ (H2 t d Q1 Q2 Q3) _). apply Rmult_le_compat_r; [apply Rle_0_sqr|lra]. }
    { exact OS. }
    destruct (Nat.eq_dec n 0) as [Z0|Z0].
    { exists 0, 1. split; [lra|]. split; [lra|]. intros me h ts Hg _. pose proof Hg as (Hne & _). destruct ts as [|t ts]; [contradiction|].
      destruct (integrate_rows _ _ _ me (sub_init s) t ts FC eq_refl) as (xs & xds & Ei & Lxs & _). eexists xs, xds, _, _. split; [exact Ei|]. split; [apply EA|].
      split; [now rewrite map_length|]. intros; lia. }
    destruct (vlip_all n ltac:(lia) (fun i x => rates s i (nth i x 0)) (fun _ => true) (B + 1)) as (L & PL & HL).
    { intros j Hj _. apply (vlip_comp n (rates s j)); [trivial|]. now apply rates_lip. }
    destruct (bound_all n ltac:(lia) (fun i x => rates s i (nth i x 0)) (B + 1)) as (M & PM & HM).
    { intros j Hj. apply vlip_bound. apply (vlip_comp n (rates s j)); [trivial|]. now apply rates_lip. }
    set (T' := Rabs T). set (E := (B + L * M + L * 0) * T' * exp (L * T')).
    assert (PE : 0 <= E).
    { unfold E. apply Rmult_le_pos; [apply Rmult_le_pos; [|apply Rabs_pos]|left; apply exp_pos]. pose proof (Rmult_le_pos _ _ PL PM). lra. }
    exists (E + 0), (/ (2 * (M + 0 + E + 1))). split; [lra|]. split; [apply Rinv_0_lt_compat; lra|]. intros me h ts Hg Hh0.
    pose proof Hg as (Hne & Hh & H0 & HT & Hst). destruct (small_step M 0 E h PM (Rle_refl 0) PE Hh Hh0) as (S1 & S2 & S3).
    destruct ts as [|t ts]; [contradiction|]. cbn [nth] in H0. subst t.
    destruct (integrate_rows _ _ _ me (sub_init s) 0 ts FC eq_refl) as (xs & xds & Ei & Lxs & X0 & Xl & Xs).
    exists xs, xds, (map X (0 :: ts)), (map Xd (0 :: ts)). split; [exact Ei|]. split; [apply EA|]. split; [now rewrite map_length|].
    intros k i Hk Hlt. rewrite Lxs in Hk. pose proof (grid_mono T h _ Hg) as GM.
    assert (NX : forall k, (k < S (length ts))%nat -> nth k (map X (0 :: ts)) [] = X (nth k (0 :: ts) 0)) by (intros; now rewrite (nth_map_l _ _ _ 0)).
    apply (global_bound n F) with (irr := fun _ => false) (B := B) (L := L) (M := M) (X := fun k => nth k (map X (0 :: ts)) []) (Z := fun k => nth k xs [])
      (t := fun k => nth k (0 :: ts) 0) (N := length ts) (meth := me) (h := h) (c := 0) (C1 := B) (T := T'); trivial; try lra.
    + intros x y e j Hx Hy He Hj _. rewrite !NF by trivial. now apply HL.
    + intros x j Hx Hj. rewrite NF by trivial. now apply HM.
    + intros k' Hk'. rewrite NX by lia. split; [apply LX|]. intros j Hj. destruct (HB j Hj) as [HB1 _]. apply (HB1 (nth k' (0 :: ts) 0)). apply GM. cbn; lia.
    + intros k' Hk'. apply Hst. cbn; lia.
    + change (nth (length ts) (0 :: ts) 0 - 0 <= T'). destruct (GM (length ts) ltac:(cbn; lia)) as [_ G2]. pose proof (Rle_abs T). unfold T'. lra.
    + rewrite X0, NX by lia. cbn [nth]. now symmetry.
    + intros k' Hk'. apply Xs. lia.
    + intros k' j Hk' Hj _. rewrite NF by trivial. rewrite !NX by lia. destruct (HB j Hj) as [_ HB2].
      pose proof (GM k' ltac:(cbn; lia)). pose proof (GM (S k') ltac:(cbn; lia)). pose proof (Hst k' ltac:(cbn; lia)).
      specialize (HB2 (nth k' (0 :: ts) 0) (nth (S k') (0 :: ts) 0 - nth k' (0 :: ts) 0) ltac:(lra) ltac:(lra) ltac:(lra)).
      replace (nth k' (0 :: ts) 0 + (nth (S k') (0 :: ts) 0 - nth k' (0 :: ts) 0)) with (nth (S k') (0 :: ts) 0) in HB2 by ring. exact HB2.
    + intros; discriminate.
    + replace ((B + L * M + L * 0) * h * T' * exp (L * T')) with (E * h) by (unfold E; ring). exact S3.
    + lia.
Qed.
