(** Proofs about DMPs: construction and setters. *)
From Coq Require Import String.
From Verif Require Import Base BaseLemmas DynModel DynSpec DynProofs DynProofs2 DynProofs7 ParamModel TrajModel DmpModel DmpSpec DmpProofs DmpProofs2 DmpProofs3 DmpProofs4.
Open Scope R_scope.

Ltac spl := repeat match goal with |- _ /\ _ => split; trivial end.
Section S.
Variable pf : nat -> list (string * pval) -> R -> res R.

Lemma wf_ready m : wf pf m -> ready m.
Proof. intros (A1 & A2 & A3 & A4 & A5 & _). split; trivial. Qed.
Lemma wf_sound m : wf pf m -> sound pf m.
Proof.
  intros (A1 & A2 & A3 & A4 & A5 & A6 & A7 & A8 & A9 & A10 & A11 & A12 & A13 & A14 & A15 & A16 & A17 & A18 & A19).
  split; [trivial|]. intros y a Hy Ha. unfold wf, with_y0_amps, fas_ok in *. cbn in *.
  spl.
  - intros y' E; now injection E as <-.
  - discriminate.
  - intros _. exists a. now split.
Qed.
Lemma sound_wf m : sound pf m -> ready m -> wf pf m.
Proof.
  intros [H0 H] [R1 R2].
  destruct (H (repeat 0 (m_dim m)) (repeat 0 (m_dim m)) (repeat_length _ _) (repeat_length _ _))
    as (A1 & A2 & A3 & A4 & A5 & A6 & A7 & A8 & A9 & A10 & A11 & A12 & A13 & A14 & A15 & A16 & A17 & A18 & A19).
  unfold wf, with_y0_amps, fas_ok in *. cbn in *. spl.
Qed.

Lemma sub_dim_set_tau s t : sub_dim (sub_set_tau s t) = sub_dim s.
Proof. now destruct s. Qed.
Lemma sub_tau_set_tau s t : sub_tau (sub_set_tau s t) = t.
Proof. now destruct s. Qed.
Lemma sub_ok_set_tau s t : sub_ok s -> t <> 0 -> sub_ok (sub_set_tau s t).
Proof. intros [_ H] Ht. split; [now rewrite sub_tau_set_tau|]. now destruct s. Qed.

Lemma set_tau_sound m t : sound pf m -> m_tau m <> 0 -> t <> 0 -> exists m', set_tau m t = Ok m' /\ sound pf m' /\ m_tau m' = t.
Proof.
  intros [S0 S1] Hm Ht. unfold set_tau. destruct (Req_EM_T (m_tau m) 0) as [E|_]; [contradiction|].
  eexists. split; [reflexivity|]. split; [|reflexivity]. split; [exact S0|].
  intros y a Hy Ha. specialize (S1 y a Hy Ha).
  destruct S1 as (A1 & A2 & A3 & A4 & A5 & A6 & A7 & A8 & A9 & A10 & A11 & A12 & A13 & A14 & A15 & A16 & A17 & A18 & A19).
  assert (Hc : t / m_tau m <> 0).
  { unfold Rdiv. apply Rmult_integral_contrapositive. split; [trivial|]. now apply Rinv_neq_0_compat. }
  assert (Hs : forall s, sub_ok s -> sub_ok (sub_set_tau s (sub_tau s * (t / m_tau m)))).
  { intros s Hs. apply sub_ok_set_tau; trivial. apply Rmult_integral_contrapositive. split; [apply Hs|trivial]. }
  unfold wf, with_y0_amps, upd_tau, fas_ok in *. cbn in *.
  spl; try (now rewrite sub_dim_set_tau); auto.
  - rewrite A7. field. trivial.
  - destruct (m_goal m); cbn in *; [|trivial]. rewrite sub_dim_set_tau. split; [apply Hs|]; apply A13.
Qed.

Lemma set_y_same n y : length y = n -> set_y_init n n y = Ok y.
Proof.
  intros <-. unfold set_y_init, set_x_init, pad. rewrite Nat.eqb_refl, Nat.sub_diag. cbn [repeat]. rewrite app_nil_r.
  now rewrite Nat.eqb_refl.
Qed.
Lemma set_y_double n y : length y = n -> set_y_init n (2 * n) y = Ok (pad (2 * n) y) /\ length (pad (2 * n) y) = (2 * n)%nat.
Proof.
  intros <-. unfold set_y_init, set_x_init. rewrite Nat.eqb_refl, pad_length by lia. now rewrite Nat.eqb_refl.
Qed.

Lemma sub_init_set s y s' : sub_set_y_init s y = Ok s' -> sub_init s' = y /\ length y = sub_dim s.
Proof.
  unfold sub_set_y_init. destruct (Nat.eq_dec (length y) (sub_dim s)) as [E|E].
  - rewrite set_y_same by trivial. cbn [bind]. intros H; injection H as <-. split; trivial. now destruct s.
  - unfold set_y_init. apply Nat.eqb_neq in E. rewrite E. discriminate.
Qed.

Lemma set_y0_sound m y : sound pf m -> length y = m_dim m -> goal_accepts m y ->
  exists m', set_y0 m y = Ok m' /\ sound pf m' /\ m_y0 m' = Some y /\ d_init (m_spring m') = pad (2 * m_dim m) y /\
    m_dim m' = m_dim m /\ m_tau m' = m_tau m /\ m_attr m' = m_attr m.
Proof.
  intros [S0 S1] Hy Hg. unfold goal_accepts in Hg. unfold set_y0. rewrite Hy, Nat.eqb_refl.
  pose proof (S1 y y Hy Hy) as (_ & _ & _ & _ & _ & Dy & _). cbn in Dy.
  unfold d_set_y_init. rewrite Dy. destruct (set_y_double _ y Hy) as [E L]. rewrite E. cbn [bind].
  pose proof (S1 y y Hy Hy) as (_ & _ & _ & _ & _ & _ & _ & _ & _ & _ & _ & _ & Og & _). cbn in Og.
  assert (G : exists g', match m_goal m with
              | Some g => if m_req m then Ok (Some g) else let* g' := sub_set_y_init g y in Ok (Some g')
              | None => Ok None end = Ok g' /\ opt_ok (m_dim m) g').
  { destruct (m_goal m) as [g|]; [|exists None; split; [reflexivity|exact I]].
    destruct (m_req m) eqn:Er; [exists (Some g); now split|].
    destruct Hg as [Hg|Hg]; [congruence|]. destruct Og as [[Ot Og] Od].
    unfold sub_set_y_init. rewrite Od, set_y_same by trivial. cbn [bind]. eexists. split; [reflexivity|].
    destruct g as [e|g|h|h]; cbn in Ot, Og, Od, Hg |- *; try contradiction.
    - unfold sub_dim in Od. cbn in Od. split; [split; [exact Ot|]|exact Hy]. cbn. rewrite Hy, <- Od. exact Og.
    - unfold sub_dim in Od. cbn in Od. destruct Og as (O1 & O2 & O7). split; [split; [exact Ot|]|exact Hy].
      split; [exact O1|]. split; [|intros i Hi; apply Hg; cbn in Hi; lia].
      unfold richards_ok in *. cbn. rewrite Hy, <- Od. exact O2. }
  destruct G as (g' & Eg & Og'). rewrite Eg. cbn [bind]. eexists. split; [reflexivity|].
  split; [|now repeat split]. split; [intros y' E'; now injection E' as <-|].
  intros y' a Hy' Ha.
  destruct (S1 y' a Hy' Ha) as (A1 & A2 & A3 & A4 & A5 & A6 & A7 & A8 & A9 & A10 & A11 & A12 & A13 & A14 & A15 & A16 & A17 & A18 & A19).
  unfold wf, with_y0_amps, upd_y0, fas_ok in *. cbn in *. spl.
Qed.

Lemma goal_attr_ok m y : sound pf m -> length y = m_dim m -> exists g', goal_attr m y = Ok g' /\ opt_ok (m_dim m) g'.
Proof.
  intros [S0 S1] Hy. pose proof (S1 y y Hy Hy) as (_ & _ & _ & _ & _ & _ & _ & _ & _ & _ & _ & _ & Og & _). cbn in Og.
  unfold goal_attr. destruct (m_goal m) as [g|]; [|exists None; split; [reflexivity|exact I]].
  destruct (m_req m); [exists (Some g); now split|].
  destruct g as [e|g|h|h]; cbn; try (eexists; split; [reflexivity|exact Og]).
  destruct Og as [[Ot Og] Od]. unfold sub_dim in *. cbn in *. rewrite Hy, Od, Nat.eqb_refl. cbn.
  eexists; split; [reflexivity|]. split; [split; [exact Ot|]|exact Od]. cbn. rewrite Hy, <- Od. split; [reflexivity|apply Og].
Qed.
Lemma set_yattr_sound m y : sound pf m -> length y = m_dim m ->
  exists g, goal_attr m y = Ok g /\ set_yattr m y = Ok (upd_attr m y g) /\ sound pf (upd_attr m y g).
Proof.
  intros S Hy. destruct (goal_attr_ok m y S Hy) as (g & E & Og). exists g. split; [trivial|].
  unfold set_yattr. rewrite Hy, Nat.eqb_refl, E. cbn [bind]. split; [reflexivity|].
  destruct S as [S0 S1]. split; [exact S0|]. intros y' a Hy' Ha.
  destruct (S1 y' a Hy' Ha) as (A1 & A2 & A3 & A4 & A5 & A6 & A7 & A8 & A9 & A10 & A11 & A12 & A13 & A14 & A15 & A16 & A17 & A18 & A19).
  unfold wf, with_y0_amps, upd_attr, fas_ok in *. cbn in *. spl.
Qed.

Lemma decouple_ok n p : par_ok p n -> par_ok (decouple n p) n /\ forall i, (i < n)%nat -> par_val (decouple n p) i = par_val p i.
Proof.
  destruct p as [r|l]; cbn; intros H; split; trivial.
  - apply repeat_length.
  - intros i Hi. now apply nth_repeat_lt.
Qed.
Lemma sub_decouple_ok s : sub_ok s -> sub_ok (sub_decouple s) /\ sub_dim (sub_decouple s) = sub_dim s.
Proof.
  intros [Ht H]. destruct s as [e|g|h|h]; unfold sub_dim; cbn in *; (split; [split; trivial|reflexivity]).
  - split; [apply H|]. now apply decouple_ok.
  - destruct H as (H1 & H2 & H3). repeat split; trivial; now apply decouple_ok.
  - destruct H as (H1 & (H2 & H3 & H4 & H5 & H6) & H7). unfold richards_ok. cbn.
    repeat split; trivial; now apply decouple_ok.
Qed.
Lemma decouple_sound m : sound pf m -> sound pf (m_decouple m).
Proof.
  intros [S0 S1]. split; [exact S0|]. intros y a Hy Ha.
  destruct (S1 y a Hy Ha) as (A1 & A2 & A3 & A4 & A5 & A6 & A7 & A8 & A9 & A10 & A11 & A12 & A13 & A14 & A15 & A16 & A17 & A18 & A19).
  unfold wf, with_y0_amps, m_decouple, upd_sub, d_decouple, fas_ok in *. cbn in *. rewrite A6.
  spl; try (now apply decouple_ok).
  - intros i Hi. rewrite (proj2 (decouple_ok _ _ A11)) by trivial. now apply A12.
  - destruct (m_goal m); cbn in *; [|trivial]. destruct (sub_decouple_ok _ (proj1 A13)) as [B1 B2]. split; [trivial|]. rewrite B2. apply A13.
  - destruct (m_damping m); cbn in *; [|trivial]. destruct (sub_decouple_ok _ (proj1 A14)) as [B1 B2]. split; [trivial|]. rewrite B2. apply A14.
Qed.

(** *** construction *)
Lemma pmap_ok f p n : par_ok p n -> par_ok (pmap f p) n.
Proof. destruct p; cbn; trivial. intros <-. apply map_length. Qed.

Lemma exp_sub tau x a r : tau <> 0 -> length a = length x -> sub_ok (SubE (Esys tau x a (PScal r))).
Proof. intros Ht Hl. split; [exact Ht|]. split; [exact Hl|exact I]. Qed.
Lemma time_sub tau d : tau <> 0 -> sub_ok (SubT (new_time tau d)).
Proof. intros Ht. split; [exact Ht|reflexivity]. Qed.
Lemma gating_sub tau : 0 < tau -> exists s, for_gating tau 0.1 1 = Ok s /\ sub_ok (SubS s) /\ sub_dim (SubS s) = 1%nat.
Proof.
  intros Ht. destruct (for_gating_ok tau 0.1 1 Ht ltac:(lra)) as (s & Es & Ei & Et & rate & infl & Er & Eq & _).
  exists s. split; [trivial|]. split; [|unfold sub_dim; cbn; now rewrite Ei]. split; [cbn; rewrite Et; lra|].
  cbn. rewrite Ei, Er, Eq. split; [exact I|]. split; [exact I|]. intros [|i] Hi; cbn in *; lra || lia.
Qed.
Lemma new_dmp_ok ty tau y0 attr fas kw : 0 < tau -> length attr = length y0 -> full_kw (length y0) kw ->
  distinct_for ty y0 attr ->
  (match fas with None => True | Some fs => (fs = [] \/ (length y0 <= length fs)%nat) /\
     forall i f, nth_error fs i = Some f -> is_trained f = true -> forall ph, exists v, pf i (f_model f) ph = Ok v end) ->
  exists m, new_dmp ty tau y0 attr fas kw = Ok m /\ sound pf m /\ synced m /\ plain_goal m /\
    m_dim m = length y0 /\ m_tau m = tau /\ m_attr m = attr /\ m_y0 m = None /\ m_fas m = fas /\
    m_req m = requires_scaling ty /\ m_scaling m = opt (k_scaling kw) NoScaling /\ m_amps m = k_amps kw /\
    d_init (m_spring m) = pad (2 * length y0) y0 /\ d_mass (m_spring m) = PScal 1 /\
    d_spring (m_spring m) = pmap (fun d => d * d / 4) (d_damp (m_spring m)) /\
    d_damp (m_spring m) = opt (k_alpha kw) (PScal 20) /\
    (forall y, length y = length y0 -> distinct_for ty y attr -> goal_accepts m y).
Proof.
  intros Ht Ha (K1 & K2 & K3 & K4 & K5 & K6) Hd Hf.
  set (n := length y0) in *. set (al := opt (k_alpha kw) (PScal 20)) in *.
  assert (EF : exists fin, full n al = Ok fin /\ length fin = n).
  { unfold full. destruct al as [r|l]; cbn in K6.
    - exists (repeat r n). split; [reflexivity|apply repeat_length].
    - exists l. split; [now apply fit_same|trivial]. }
  destruct EF as (fin & EF & LF).
  assert (Ht' : tau <> 0) by lra.
  set (sp := new_spring tau y0 attr al None (PScal 1)).
  assert (ED : exists go ga ph da, default_subs ty tau y0 attr sp = Ok (go, ga, ph, da) /\
     opt_ok n go /\ (sub_ok ga /\ sub_dim ga = 1%nat) /\ (sub_ok ph /\ sub_dim ph = 1%nat) /\ opt_ok n da /\
     match go with Some (SubE e) => e_attr e = attr | _ => True end /\
     (go = None -> requires_scaling ty = false) /\
     (forall y, length y = n -> distinct_for ty y attr -> requires_scaling ty = true \/
       match go with
       | None | Some (SubE _) => True
       | Some (SubR h) => forall i, (i < n)%nat -> nth i y 0 <> par_val (h_right h) i
       | _ => False
       end)).
  { unfold default_subs. destruct ty as [| | |ns dp]; cbn [requires_scaling].
    - eexists _, _, _, _. split; [reflexivity|].
      assert (O : sub_ok (SubE (Esys tau [1] [0] (PScal 4)))) by now apply exp_sub.
      split; [exact I|]. split; [now split|]. split; [now split|]. repeat split; trivial. now right.
    - destruct (gating_sub tau Ht) as (s & Es & Os & Ls). rewrite Es. cbn [bind].
      eexists _, _, _, _. split; [reflexivity|].
      split; [split; [apply exp_sub; trivial; now rewrite Ha|reflexivity]|]. split; [now split|].
      split; [split; [now apply time_sub|reflexivity]|]. repeat split; trivial. now right.
    - destruct (gating_sub tau Ht) as (s & Es & Os & Ls). rewrite Es. cbn [bind].
      eexists _, _, _, _. split; [reflexivity|].
      split; [split; [apply exp_sub; trivial; now rewrite Ha|reflexivity]|]. split; [now split|].
      split; [split; [now apply time_sub|reflexivity]|]. repeat split; trivial. now right.
    - set (goal := if ns then _ else _). fold n in goal.
      assert (Eda : exists da, (if dp then let* final := full (length y0) (d_damp sp) in
          Ok (Some (SubE (Esys tau (map (Rmult 0.1) final) final (PScal 4)))) else Ok None) = Ok da /\ opt_ok n da).
      { destruct dp.
        - fold n. change (d_damp sp) with al. rewrite EF. cbn [bind]. eexists. split; [reflexivity|]. cbn. unfold sub_dim. cbn.
          split; [apply exp_sub; trivial; now rewrite map_length|now rewrite map_length].
        - exists None. split; [reflexivity|exact I]. }
      destruct Eda as (da & Eda & Oda). rewrite Eda. cbn [bind]. eexists _, _, _, _. split; [reflexivity|].
      split; [|split; [|split; [|split; [|split; [|split]]]]].
      + unfold goal. destruct ns.
        * split; [|reflexivity]. split; [exact Ht'|]. split; [reflexivity|]. split; [|exact Hd].
          unfold richards_ok. cbn. fold n. repeat split; trivial.
        * split; [|unfold sub_dim; cbn; apply repeat_length]. split; [exact Ht'|]. split; [reflexivity|]. split.
          -- unfold richards_ok. cbn. rewrite !repeat_length. repeat split; trivial.
          -- cbn. rewrite repeat_length. intros i Hi. rewrite !nth_repeat_lt by trivial. lra.
      + split; [|reflexivity]. split; [exact Ht'|]. split; [reflexivity|]. split.
        * unfold richards_ok. cbn. repeat split; trivial.
        * intros [|i] Hi; cbn in *; lra || lia.
      + split; [now apply time_sub|reflexivity].
      + trivial.
      + exact I.
      + discriminate.
      + intros y Hy Hyd. destruct ns; [right|now left]. unfold goal. cbn in *. intros i Hi. apply Hyd. lia. }
  destruct ED as (go & ga & ph & da & ED & O1 & (O2 & O2') & (O3 & O3') & O4 & O5 & O6 & O7).
  unfold new_dmp. rewrite K1, K2, K3, K4, K5. cbn [opt]. fold al sp. rewrite ED. cbn [bind]. eexists. split; [reflexivity|].
  split.
  { split; [discriminate|]. intros y a Hy Hla. cbn in Hy, Hla. fold n in Hy, Hla.
    unfold wf, with_y0_amps. cbn. fold n. spl.
    - intros y' E; now injection E as <-.
    - discriminate.
    - intros _. exists a. now split.
    - unfold n. now rewrite pad_length by lia.
    - now apply pmap_ok. }
  unfold synced, plain_goal, goal_accepts. cbn. fold n. repeat split; trivial. 
Qed.
End S.
