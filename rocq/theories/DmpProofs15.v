(** Proofs about DMPs: decoupling, histories of changes, fresh DMPs, setters, time steps of rollouts. *)
From Coq Require Import String.
From Verif Require Import Base BaseLemmas DynModel DynSpec DynProofs DynProofs6 ParamModel ParamSpec ParamProofs TrajModel DmpModel DmpSpec DmpProofs DmpProofs2 DmpProofs3 DmpProofs4 DmpProofs5 DmpProofs7 DmpProofs8 DmpProofs9 DmpProofs13 DmpProofs14.
Open Scope R_scope.

Section S.
Variable pf : nat -> list (string * pval) -> R -> res R.

(** ** rollout_spec determines the result *)
Lemma rows_ext (n : nat) (xs ys : list (list R)) d : length xs = n -> length ys = n ->
  (forall k, (k < n)%nat -> length (nth k xs []) = d /\ length (nth k ys []) = d) ->
  (forall k j, (k < n)%nat -> (j < d)%nat -> at_ xs k j = at_ ys k j) -> xs = ys.
Proof.
  intros L1 L2 Hl H. apply (nth_ext _ _ [] []); [congruence|]. intros k Hk. rewrite L1 in Hk. destruct (Hl k Hk) as [A B].
  apply (nth_ext _ _ 0 0); [congruence|]. intros j Hj. rewrite A in Hj. exact (H k j Hk Hj).
Qed.
Lemma index_cases n j (P : nat -> Prop) : (j < 3 * n + 2 + n)%nat ->
  (forall i, (i < n)%nat -> P i /\ P (n + i)%nat /\ P (2 * n + i)%nat /\ P (3 * n + 2 + i)%nat) -> P (3 * n)%nat -> P (3 * n + 1)%nat -> P j.
Proof.
  intros Hj H Hp Ha.
  destruct (Nat.lt_ge_cases j n) as [H1|H1]; [now apply H|].
  destruct (Nat.lt_ge_cases j (2 * n)) as [H2|H2]; [replace j with (n + (j - n))%nat by lia; apply H; lia|].
  destruct (Nat.lt_ge_cases j (3 * n)) as [H3|H3]; [replace j with (2 * n + (j - 2 * n))%nat by lia; apply H; lia|].
  destruct (Nat.eq_dec j (3 * n)) as [->|H4]; [trivial|]. destruct (Nat.eq_dec j (3 * n + 1)) as [->|H5]; [trivial|].
  replace j with (3 * n + 2 + (j - (3 * n + 2)))%nat by lia. apply H. lia.
Qed.
Lemma rollout_unique m ts s r r' : rollout_spec pf m ts s r -> rollout_spec pf m ts s r' -> r = r'.
Proof.
  intros (L1 & L2 & L3 & L4 & Hl & (ps & pds & EP & HP) & (as_ & ads & EA & HA) & HG & HD & HF & H0 & HR & HS)
         (L1' & L2' & L3' & L4' & Hl' & (ps' & pds' & EP' & HP') & (as' & ads' & EA' & HA') & HG' & HD' & HF' & H0' & HR' & HS').
  set (n := m_dim m) in *.
  assert (ps' = ps /\ pds' = pds) as [-> ->] by (split; congruence).
  assert (as' = as_ /\ ads' = ads) as [-> ->] by (split; congruence).
  assert (Eg : forall k i, (k < length ts)%nat -> (i < n)%nat -> gv n (a_xs r) k i = gv n (a_xs r') k i /\ gv n (a_xds r) k i = gv n (a_xds r') k i).
  { intros k i Hk Hi. destruct (m_goal m).
    - destruct HG as (gs & gds & EG & HG), HG' as (gs' & gds' & EG' & HG'). assert (gs' = gs /\ gds' = gds) as [-> ->] by (split; congruence).
      destruct (HG k i Hk Hi) as [-> ->], (HG' k i Hk Hi) as [-> ->]. now split.
    - destruct (HG k i Hk Hi) as [-> ->], (HG' k i Hk Hi) as [-> ->]. now split. }
  assert (Ec : forall k i, (k < length ts)%nat -> (i < n)%nat -> cv n (a_xs r) k i = cv n (a_xs r') k i /\ cv n (a_xds r) k i = cv n (a_xds r') k i).
  { intros k i Hk Hi. destruct (m_damping m).
    - destruct HD as (gs & gds & EG & HD), HD' as (gs' & gds' & EG' & HD'). assert (gs' = gs /\ gds' = gds) as [-> ->] by (split; congruence).
      destruct (HD k i Hk Hi) as [-> ->], (HD' k i Hk Hi) as [-> ->]. now split.
    - destruct (HD k i Hk Hi) as [-> ->], (HD' k i Hk Hi) as [-> ->]. now split. }
  assert (Ep : forall k, (k < length ts)%nat -> pv n (a_xs r) k = pv n (a_xs r') k /\ pv n (a_xds r) k = pv n (a_xds r') k).
  { intros k Hk. destruct (HP k Hk) as [-> ->], (HP' k Hk) as [-> ->]. now split. }
  assert (Ea : forall k, (k < length ts)%nat -> av n (a_xs r) k = av n (a_xs r') k /\ av n (a_xds r) k = av n (a_xds r') k).
  { intros k Hk. destruct (HA k Hk) as [-> ->], (HA' k Hk) as [-> ->]. now split. }
  assert (Ef : forall k i, (k < length ts)%nat -> (i < n)%nat -> at_ (a_fa r) k i = at_ (a_fa r') k i /\ at_ (a_forcing r) k i = at_ (a_forcing r') k i).
  { intros k i Hk Hi. destruct (HF k i Hk Hi) as [F1 F2], (HF' k i Hk Hi) as [F1' F2']. rewrite F2, F2', F1, F1'.
    destruct (Ep k Hk) as [-> _], (Ea k Hk) as [-> _]. now split. }
  assert (Es : forall k, (k < length ts)%nat -> forall i, (i < n)%nat -> yv (a_xs r) k i = yv (a_xs r') k i /\ zv n (a_xs r) k i = zv n (a_xs r') k i /\
     yv (a_xds r) k i = yv (a_xds r') k i /\ zv n (a_xds r) k i = zv n (a_xds r') k i).
  { induction k as [|k IH]; intros Hk i Hi.
    - destruct (HR 0%nat i Hk Hi) as [-> ->], (HR' 0%nat i Hk Hi) as [-> ->]. destruct (H0 i Hi) as [-> ->], (H0' i Hi) as [-> ->].
      destruct (Eg 0%nat i Hk Hi) as [-> _], (Ec 0%nat i Hk Hi) as [-> _], (Ef 0%nat i Hk Hi) as [_ ->]. now repeat split.
    - destruct (IH ltac:(lia) i Hi) as (I1 & I2 & I3 & I4). destruct (HR (S k) i Hk Hi) as [-> ->], (HR' (S k) i Hk Hi) as [-> ->].
      destruct (HS k i Hk Hi) as [-> ->], (HS' k i Hk Hi) as [-> ->]. rewrite I1, I2, I3, I4.
      destruct (Eg (S k) i Hk Hi) as [-> _], (Ec (S k) i Hk Hi) as [-> _], (Ef (S k) i Hk Hi) as [_ ->]. now repeat split. }
  assert (X1 : a_xs r = a_xs r').
  { apply (rows_ext (length ts) _ _ (dim_x m)); trivial; [intros k Hk; split; [now apply Hl|now apply Hl']|]. intros k j Hk Hj.
    apply (index_cases n j (fun j => at_ (a_xs r) k j = at_ (a_xs r') k j)); trivial.
    - intros i Hi. destruct (Es k Hk i Hi) as (I1 & I2 & _), (Eg k i Hk Hi) as [I3 _], (Ec k i Hk Hi) as [I4 _]. repeat split; trivial.
    - apply (Ep k Hk). - apply (Ea k Hk). }
  assert (X2 : a_xds r = a_xds r').
  { apply (rows_ext (length ts) _ _ (dim_x m)); trivial; [intros k Hk; split; [now apply Hl|now apply Hl']|]. intros k j Hk Hj.
    apply (index_cases n j (fun j => at_ (a_xds r) k j = at_ (a_xds r') k j)); trivial.
    - intros i Hi. destruct (Es k Hk i Hi) as (_ & _ & I1 & I2), (Eg k i Hk Hi) as [_ I3], (Ec k i Hk Hi) as [_ I4]. repeat split; trivial.
    - apply (Ep k Hk). - apply (Ea k Hk). }
  assert (X3 : a_forcing r = a_forcing r').
  { apply (rows_ext (length ts) _ _ n); trivial; [intros k Hk; split; [now apply Hl|now apply Hl']|]. intros k j Hk Hj. now apply Ef. }
  assert (X4 : a_fa r = a_fa r').
  { apply (rows_ext (length ts) _ _ n); trivial; [intros k Hk; split; [now apply Hl|now apply Hl']|]. intros k j Hk Hj. now apply Ef. }
  destruct r, r'. cbn in *. congruence.
Qed.

(** ** decouple_parameters *)
Lemma sub_decouple_ana s ts : sub_ana (sub_decouple s) ts = sub_ana s ts.
Proof. destruct s; cbn; [apply e_decouple_ana|apply s_decouple_ana|apply r_decouple_ana|reflexivity]. Qed.
Lemma decouple_ana m ts s r : wf pf m -> ana pf m ts s = Ok r -> ana pf (m_decouple m) ts s = Ok r.
Proof.
  intros W E. pose proof (ana_nonempty pf m ts s r E W) as Hne.
  assert (W' : wf pf (m_decouple m)).
  { apply sound_wf; [apply decouple_sound, wf_sound, W|]. apply (wf_ready pf m W). }
  destruct (ana_total pf m ts s W Hne) as (r0 & E0 & Hr). rewrite E in E0. injection E0 as <-.
  destruct (ana_total pf (m_decouple m) ts s W' Hne) as (r1 & E1 & Hr1). rewrite E1. f_equal. symmetry. apply (rollout_unique m ts s); [trivial|].
  assert (Hd : par_ok (d_damp (m_spring m)) (m_dim m)) by apply W. assert (Dy : d_dimy (m_spring m) = m_dim m) by apply W.
  assert (Hk : par_ok (d_spring (m_spring m)) (m_dim m)) by apply W. assert (Hm : par_ok (d_mass (m_spring m)) (m_dim m)) by apply W.
  unfold rollout_spec in Hr1 |- *. cbv zeta in *.
  change (m_dim (m_decouple m)) with (m_dim m) in Hr1. change (dim_x (m_decouple m)) with (dim_x m) in Hr1.
  change (m_phase (m_decouple m)) with (m_phase m) in Hr1. change (m_gating (m_decouple m)) with (m_gating m) in Hr1.
  change (m_goal (m_decouple m)) with (option_map sub_decouple (m_goal m)) in Hr1.
  change (m_damping (m_decouple m)) with (option_map sub_decouple (m_damping m)) in Hr1.
  change (m_attr (m_decouple m)) with (m_attr m) in Hr1. change (m_tau (m_decouple m)) with (m_tau m) in Hr1.
  change (d_init (m_spring (m_decouple m))) with (d_init (m_spring m)) in Hr1.
  change (pred_val pf (m_decouple m)) with (pred_val pf m) in Hr1. change (factor (m_decouple m)) with (factor m) in Hr1.
  change (target (m_decouple m)) with (target m) in Hr1.
  destruct Hr1 as (L1 & L2 & L3 & L4 & Hl & HP & HA & HG & HD & HF & H0 & HR & HS).
  split; [exact L1|]. split; [exact L2|]. split; [exact L3|]. split; [exact L4|]. split; [exact Hl|]. split; [exact HP|]. split; [exact HA|].
  split; [|split; [|split; [exact HF|split; [exact H0|split; [|exact HS]]]]].
  - destruct (m_goal m); cbn [option_map] in HG; [|exact HG]. now rewrite sub_decouple_ana in HG.
  - destruct (m_damping m); cbn [option_map] in HD; [now rewrite sub_decouple_ana in HD|]. intros k i Hk' Hi. destruct (HD k i Hk' Hi) as [A B].
    split; [|exact B]. rewrite A. cbn. rewrite Dy. now apply par_val_decouple.
  - intros k i Hk' Hi. destruct (HR k i Hk' Hi) as [A B]. split; [exact A|]. rewrite B. unfold accel. cbn. rewrite Dy. now rewrite !par_val_decouple by trivial.
Qed.
Lemma sub_decouple_diffeq s x : length x = sub_dim s -> sub_diffeq (sub_decouple s) x = sub_diffeq s x.
Proof.
  intros H. destruct s; cbn; [apply e_decouple_diffeq, H|apply s_decouple_diffeq, H|apply r_decouple_diffeq|reflexivity].
Qed.
Lemma decouple_attr g a : sub_set_attr (sub_decouple g) a = let* g' := sub_set_attr g a in Ok (sub_decouple g').
Proof. destruct g; cbn; trivial. now destruct (Nat.eqb _ _). Qed.
Lemma get_ix_len o l x v : get_ix (o, l) x = Ok v -> length v = l.
Proof.
  unfold get_ix. cbn [fst snd]. destruct (Nat.leb_spec (o + l) (length x)); [|discriminate]. intros E. injection E as <-.
  rewrite firstn_length_le; [reflexivity|]. rewrite skipn_length. lia.
Qed.
Lemma decouple_diffeq m x : wf pf m ->
  m_diffeq pf (m_decouple m) x = let* p := m_diffeq pf m x in Ok (m_decouple (fst p), snd p).
Proof.
  intros W. pose proof W as (_ & _ & _ & _ & _ & Dy & _ & _ & _ & _ & _ & _ & Og & Oda & _).
  assert (Hdg : d_goal (m_decouple m) = d_goal m).
  { unfold d_goal. change (m_goal (m_decouple m)) with (option_map sub_decouple (m_goal m)). destruct (m_goal m) as [g|]; [|reflexivity]. now destruct g. }
  unfold m_diffeq. cbv zeta.
  assert (I1 : ix_goal (m_decouple m) = ix_goal m) by (unfold ix_goal; now rewrite Hdg).
  assert (I2 : ix_phase (m_decouple m) = ix_phase m) by (unfold ix_phase; now rewrite Hdg).
  assert (I3 : ix_gating (m_decouple m) = ix_gating m) by (unfold ix_gating; now rewrite Hdg).
  assert (I4 : ix_damping (m_decouple m) = ix_damping m) by (unfold ix_damping; now rewrite Hdg).
  rewrite I1, I2, I3, I4. change (ix_spring (m_decouple m)) with (ix_spring m).
  change (m_attr (m_decouple m)) with (m_attr m). change (m_dim (m_decouple m)) with (m_dim m).
  change (m_goal (m_decouple m)) with (option_map sub_decouple (m_goal m)).
  change (m_damping (m_decouple m)) with (option_map sub_decouple (m_damping m)). change (m_phase (m_decouple m)) with (m_phase m).
  change (m_gating (m_decouple m)) with (m_gating m). change (m_tau (m_decouple m)) with (m_tau m).
  change (m_spring (m_decouple m)) with (d_decouple (m_spring m)).
  change (scale_goal (m_decouple m)) with (scale_goal m). change (predictions pf (m_decouple m)) with (predictions pf m).
  change (factors (m_decouple m)) with (factors m).
  assert (Ha : forall t, d_set_attr (d_decouple (m_spring m)) t = let* s := d_set_attr (m_spring m) t in Ok (d_decouple s)).
  { intros t. unfold d_set_attr. cbn. now destruct (Nat.eqb _ _). }
  assert (GD : d_goal m = m_dim m) by exact (goal_dim pf m W).
  set (c1 := match m_goal m with Some g0 => _ | None => _ end).
  assert (E1 : match option_map sub_decouple (m_goal m) with
    | Some g0 => let* g1 := sub_set_attr g0 (m_attr m) in let* xg := get_ix (ix_goal m) x in let* xdg := sub_diffeq g1 xg in
                 let* target := scale_goal m xg in let* sp0 := d_set_attr (d_decouple (m_spring m)) target in Ok (sp0, Some g1, xdg)
    | None => let* sp0 := d_set_attr (d_decouple (m_spring m)) (m_attr m) in Ok (sp0, None, repeat 0 (m_dim m)) end =
    let* q := c1 in Ok (d_decouple (fst (fst q)), option_map sub_decouple (snd (fst q)), snd q)).
  { unfold c1. destruct (m_goal m) as [g0|]; cbn [option_map].
    - rewrite decouple_attr. destruct (sub_set_attr g0 (m_attr m)) as [g1|] eqn:Eg; [|reflexivity]. cbn [bind].
      destruct (get_ix (ix_goal m) x) as [xg|] eqn:Ex; [|reflexivity]. cbn [bind].
      rewrite sub_decouple_diffeq.
      2:{ apply get_ix_len in Ex. rewrite Ex, GD. symmetry. rewrite (sub_dim_attr _ _ _ Eg). apply Og. }
      destruct (sub_diffeq g1 xg) as [xdg|]; [|reflexivity]. cbn [bind].
      destruct (scale_goal m xg) as [tg|]; [|reflexivity]. cbn [bind]. rewrite Ha. destruct (d_set_attr (m_spring m) tg); reflexivity.
    - rewrite Ha. destruct (d_set_attr (m_spring m) (m_attr m)); reflexivity. }
  rewrite E1. clear E1. destruct c1 as [[[sp1 goal1] xdg]|] eqn:Ec1; [|reflexivity]. cbn [bind fst snd].
  assert (Hdy : d_dimy sp1 = m_dim m).
  { assert (Hs : forall t s, d_set_attr (m_spring m) t = Ok s -> d_dimy s = m_dim m).
    { intros t s. unfold d_set_attr. destruct (Nat.eqb _ _); [|discriminate]. intros E. injection E as <-. exact Dy. }
    unfold c1 in Ec1. destruct (m_goal m) as [g0|].
    - destruct (sub_set_attr g0 (m_attr m)); [|discriminate]. cbn [bind] in Ec1. destruct (get_ix (ix_goal m) x); [|discriminate]. cbn [bind] in Ec1.
      destruct (sub_diffeq _ _); [|discriminate]. cbn [bind] in Ec1. destruct (scale_goal _ _); [|discriminate]. cbn [bind] in Ec1.
      destruct (d_set_attr (m_spring m) _) eqn:E; [|discriminate]. cbn [bind] in Ec1. injection Ec1 as <- _ _. now apply Hs in E.
    - destruct (d_set_attr (m_spring m) _) eqn:E; [|discriminate]. cbn [bind] in Ec1. injection Ec1 as <- _ _. now apply Hs in E. }
  destruct (put_ix (ix_goal m) xdg _) as [xd1|]; [|reflexivity]. cbn [bind].
  set (c2 := match m_damping m with Some ds => _ | None => _ end).
  assert (E2 : match option_map sub_decouple (m_damping m) with
     | Some ds => let* xda := get_ix (ix_damping m) x in let* xdd := sub_diffeq ds xda in Ok (d_set_damp (d_decouple sp1) (PVec xda), xdd)
     | None => Ok (d_decouple sp1, repeat 0 (m_dim m)) end = let* q := c2 in Ok (d_decouple (fst q), snd q)).
  { unfold c2. destruct (m_damping m) as [ds|]; cbn [option_map]; [|reflexivity].
    destruct (get_ix (ix_damping m) x) as [xda|] eqn:Ex; [|reflexivity]. cbn [bind].
    rewrite sub_decouple_diffeq by (apply get_ix_len in Ex; rewrite Ex; symmetry; apply Oda).
    destruct (sub_diffeq ds xda); reflexivity. }
  rewrite E2. clear E2. destruct c2 as [[sp2 xdd]|]; [|reflexivity]. cbn [bind fst snd].
  destruct (put_ix (ix_damping m) _ _); [|reflexivity]. cbn [bind]. destruct (get_ix (ix_spring m) x) as [xs|]; [|reflexivity]. cbn [bind].
  rewrite d_decouple_diffeq. destruct (d_diffeq sp2 xs); [|reflexivity]. cbn [bind].
  destruct (get_ix (ix_phase m) x); [|reflexivity]. cbn [bind]. destruct (sub_diffeq (m_phase m) _); [|reflexivity]. cbn [bind].
  destruct (put_ix (ix_phase m) _ _); [|reflexivity]. cbn [bind]. destruct (get_ix (ix_gating m) x); [|reflexivity]. cbn [bind].
  destruct (sub_diffeq (m_gating m) _); [|reflexivity]. cbn [bind]. destruct (put_ix (ix_gating m) _ _); [|reflexivity]. cbn [bind].
  destruct (one _); [|reflexivity]. cbn [bind]. destruct (one _); [|reflexivity]. cbn [bind].
  destruct (predictions pf m _); [|reflexivity]. cbn [bind]. destruct (factors m _); [|reflexivity]. cbn [bind].
  destruct (add_forcing _ _ _ _); [|reflexivity]. cbn [bind]. destruct (put_ix (ix_spring m) _ _); [|reflexivity]. cbn [bind fst snd].
  reflexivity.
Qed.
End S.
