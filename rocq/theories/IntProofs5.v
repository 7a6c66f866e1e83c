(** Numerical integration of a DMP: bounds for its analytical solution. *)
From Coq Require Import String.
From Verif Require Import Base BaseLemmas DynModel DynSpec DynProofs DynProofs3 DynProofs5 DynProofs6 DynProofs7 ParamModel DmpModel DmpSpec DmpSpec2 DmpProofs DmpProofs3 DmpProofs7 DmpProofs13 DmpProofs14 DmpProofs19 SchedModel IntModel IntSpec IntProofs IntProofs2 IntProofs3 IntProofs4.
Open Scope R_scope.

Lemma grid_mono T h ts : sampling T h ts -> forall k, (k < length ts)%nat -> 0 <= nth k ts 0 <= T.
Proof.
  intros (Hne & Hh & H0 & Hl & Hs). assert (M : forall j k, (k + j < length ts)%nat -> nth k ts 0 <= nth (k + j) ts 0).
  { induction j as [|j IH]; intros k Hk; [rewrite Nat.add_0_r; lra|]. specialize (IH k ltac:(lia)). specialize (Hs (k + j)%nat ltac:(lia)).
    replace (k + S j)%nat with (S (k + j)) by lia. lra. }
  assert (El : last ts 0 = nth (length ts - 1) ts 0).
  { destruct ts as [|t0 ts0] using rev_ind; [contradiction|]. rewrite last_last, app_length. cbn [length]. rewrite app_nth2 by lia.
    replace (length ts0 + 1 - 1 - length ts0)%nat with 0%nat by lia. reflexivity. }
  intros k Hk. pose proof (M k 0%nat ltac:(lia)) as M1. rewrite Nat.add_0_l, H0 in M1.
  pose proof (M (length ts - 1 - k)%nat k ltac:(lia)) as M2. replace (k + (length ts - 1 - k))%nat with (length ts - 1)%nat in M2 by lia. lra.
Qed.
(** discrete growth *)
Lemma growth (s t : nat -> R) a b N : 0 <= a -> 0 <= b -> (forall k, 0 <= s k) -> (forall k, (k < N)%nat -> 0 <= t (S k) - t k) ->
  (forall k, (k < N)%nat -> s (S k) <= s k + (t (S k) - t k) * (a * s k + b)) ->
  forall k, (k <= N)%nat -> t 0%nat <= t k /\ s k <= (s 0%nat + b * (t k - t 0%nat)) * exp (a * (t k - t 0%nat)).
Proof.
  intros Ha Hb Hs Ht H. induction k as [|k IH]; intros Hk; [split; [lra|]; rewrite Rminus_eq_0, !Rmult_0_r, exp_0; lra|].
  destruct (IH ltac:(lia)) as [IH1 IH2]. specialize (Ht k ltac:(lia)). specialize (H k ltac:(lia)). split; [lra|].
  set (d := t (S k) - t k) in *. set (D := t k - t 0%nat) in *. replace (t (S k) - t 0%nat) with (D + d) by (unfold D, d; ring).
  assert (HD : 0 <= D) by (unfold D; lra).
  replace (a * (D + d)) with (a * D + a * d) by ring. rewrite exp_plus.
  assert (E1 : 1 + a * d <= exp (a * d)) by apply exp_ge_1p. assert (Q : 0 <= a * d) by now apply Rmult_le_pos.
  assert (E2 : 1 <= exp (a * D)) by (pose proof (exp_ge_1p (a * D)); pose proof (Rmult_le_pos _ _ Ha HD); lra).
  pose proof (Hs k) as S0. pose proof (Hs 0%nat) as S00. pose proof (Rmult_le_pos _ _ Hb Ht) as Bd. pose proof (Rmult_le_pos _ _ Hb HD) as BD.
  apply Rle_trans with ((s k + b * d) * exp (a * d)).
  - apply Rle_trans with (s k * (1 + a * d) + b * d); [lra|]. rewrite Rmult_plus_distr_r. apply Rplus_le_compat; [apply Rmult_le_compat_l; lra|].
    rewrite <- (Rmult_1_r (b * d)) at 1. apply Rmult_le_compat_l; lra.
  - rewrite <- Rmult_assoc. apply Rmult_le_compat_r; [lra|]. replace (s 0%nat + b * (D + d)) with ((s 0%nat + b * D) + b * d) by ring.
    rewrite Rmult_plus_distr_r. apply Rplus_le_compat; [exact IH2|]. rewrite <- (Rmult_1_r (b * d)) at 1. apply Rmult_le_compat_l; lra.
Qed.

Section Ana.
Variable pf : nat -> list (string * pval) -> R -> res R.
Variable m : dmp.
Hypothesis W : wf pf m.
Hypothesis Sy : synced m.
Hypothesis Pg : plain_goal m.
Hypothesis I1 : integrable (m_phase m).
Hypothesis I2 : integrable (m_gating m).
Hypothesis I3 : match m_goal m with Some g => integrable g | None => True end.
Hypothesis I4 : match m_damping m with Some g => integrable g | None => True end.
Hypothesis Pl : forall i, (i < m_dim m)%nat -> lipschitz (fun ph => pred_val pf m ph i).
Notation n := (m_dim m).
Notation N := (dim_x m).
Let HN : N = (4 * n + 2)%nat. Proof. unfold dim_x. lia. Qed.

(** closed form of one component of a subsystem *)
Lemma sub_closed s i : sub_ok s -> integrable s -> (i < sub_dim s)%nat -> exists u : R -> R,
  (forall ts ps pds, sub_ana s ts = Ok (ps, pds) -> forall k, (k < length ts)%nat -> at_ ps k i = u (nth k ts 0)) /\
  (timed s = false -> forall t, derivable_pt_lim u t (rates s i (u t))) /\
  (forall h, s = SubT h -> 0 < t_tau h /\ i = 0%nat /\ h = new_time (t_tau h) (t_down h) /\
     u = fun t => if t_down h then Rmax 0 (1 - t / t_tau h) else Rmin 1 (t / t_tau h)).
Proof.
  intros Ho Hi Hlt. destruct (timed s) eqn:E.
  - destruct s as [| | |h]; try discriminate. destruct Ho as [Ht Hs]. unfold sub_dim in Hlt. cbn [sub_tau sub_init integrable] in *.
    assert (Eh : h = new_time (t_tau h) (t_down h)) by (destruct h as [a b c]; cbn in *; now rewrite Hs).
    rewrite Hs in Hlt. cbn in Hlt. assert (i = 0%nat) by lia. subst i.
    exists (fun t => if t_down h then Rmax 0 (1 - t / t_tau h) else Rmin 1 (t / t_tau h)). split; [|split; [discriminate|]].
    + intros ts ps pds EA k Hk. cbn [sub_ana] in EA. rewrite Eh, t_ana_ok in EA by lra. injection EA as <- _. rewrite (at_map _ _ _ _ 0) by trivial. reflexivity.
    + intros h' E'. injection E' as <-. now repeat split.
  - destruct (sub_smooth s Ho Hi E) as (X & Xd & EA & _ & _ & HD). exists (comp X i). split; [|split].
    + intros ts ps pds E1 k Hk. rewrite EA in E1. injection E1 as <- _. rewrite (at_map _ _ _ _ 0) by trivial. reflexivity.
    + intros _ t. now apply HD.
    + intros h ->. discriminate.
Qed.
(** closed form of a component of the DMP that belongs to a subsystem *)
Lemma closed j : (2 * n <= j < N)%nat -> exists u : R -> R,
  (forall ts r, ana pf m ts false = Ok r -> ts <> [] -> forall k, (k < length ts)%nat -> at_ (a_xs r) k j = u (nth k ts 0)) /\
  (irr m j = false -> forall t, derivable_pt_lim u t (orate (fst (own m j)) (snd (own m j)) (u t))) /\
  (irr m j = true -> exists h, own m j = (Some (SubT h), 0%nat) /\ 0 < t_tau h /\ h = new_time (t_tau h) (t_down h) /\
     u = fun t => if t_down h then Rmax 0 (1 - t / t_tau h) else Rmin 1 (t / t_tau h)).
Proof.
  intros Hj. pose proof (own_ok pf m W I1 I2 I3 I4 j Hj) as Ho.
  assert (Sp : forall ts r, ana pf m ts false = Ok r -> ts <> [] -> rollout_spec pf m ts false r).
  { intros ts r E Hne. destruct (ana_total pf m ts false W Hne) as (r' & E' & Hs). rewrite E in E'. injection E' as <-. exact Hs. }
  unfold irr. rewrite (proj2 (Nat.ltb_ge j (2 * n))) by lia.
  assert (K : forall s i, own m j = (Some s, i) -> (forall ts r, rollout_spec pf m ts false r -> exists ps pds, sub_ana s ts = Ok (ps, pds) /\ forall k, (k < length ts)%nat -> at_ (a_xs r) k j = at_ ps k i) ->
    exists u : R -> R, (forall ts r, ana pf m ts false = Ok r -> ts <> [] -> forall k, (k < length ts)%nat -> at_ (a_xs r) k j = u (nth k ts 0)) /\
    (timed s = false -> forall t, derivable_pt_lim u t (rates s i (u t))) /\
    (timed s = true -> exists h, own m j = (Some (SubT h), 0%nat) /\ 0 < t_tau h /\ h = new_time (t_tau h) (t_down h) /\
     u = fun t => if t_down h then Rmax 0 (1 - t / t_tau h) else Rmin 1 (t / t_tau h))).
  { intros s i E R1. rewrite E in Ho. destruct Ho as (O1 & O2 & O3). destruct (sub_closed s i O1 O2 O3) as (u & U1 & U2 & U3). exists u. split; [|split].
    - intros ts r Er Hne k Hk. destruct (R1 ts r (Sp ts r Er Hne)) as (ps & pds & Ea & Ek). rewrite Ek by trivial. now apply (U1 ts ps pds).
    - exact U2.
    - intros Ht. destruct s as [| | |h]; try discriminate. destruct (U3 h eq_refl) as (V1 & V2 & V3 & V4). exists h. rewrite E, V2. now repeat split. }
  revert K Ho. unfold own. destruct (Nat.ltb_spec j (3 * n)) as [Q0|Q0]; [|destruct (Nat.eqb_spec j (3 * n)) as [Q1|Q1]; [|destruct (Nat.eqb_spec j (3 * n + 1)) as [Q2|Q2]]]; intros K Ho; cbn [fst snd orate].
  - destruct (m_goal m) as [g|] eqn:Eg; cbn [orate].
    + apply (K _ _ eq_refl). intros ts r Hs. destruct Hs as (_ & _ & _ & _ & _ & _ & _ & Hg & _). rewrite Eg in Hg.
      destruct Hg as (ps & pds & E & Hk). exists ps, pds. split; [exact E|]. intros k Hlt. destruct (Hk k (j - 2 * n)%nat Hlt ltac:(lia)) as [Hk1 _].
      unfold gv in Hk1. now replace (2 * n + (j - 2 * n))%nat with j in Hk1 by lia.
    + exists (fun _ => nth (j - 2 * n) (m_attr m) 0). split; [|split; [intros _ t; apply derivable_pt_lim_const|discriminate]].
      intros ts r Er Hne k Hk. destruct (Sp ts r Er Hne) as (_ & _ & _ & _ & _ & _ & _ & Hg & _). rewrite Eg in Hg.
      destruct (Hg k (j - 2 * n)%nat Hk ltac:(lia)) as [Hg1 _]. unfold gv in Hg1. now replace (2 * n + (j - 2 * n))%nat with j in Hg1 by lia.
  - apply (K _ _ eq_refl). intros ts r Hs. destruct Hs as (_ & _ & _ & _ & _ & (ps & pds & E & Hk) & _). exists ps, pds. split; [exact E|].
    intros k Hlt. rewrite Q1. apply (Hk k Hlt).
  - apply (K _ _ eq_refl). intros ts r Hs. destruct Hs as (_ & _ & _ & _ & _ & _ & (ps & pds & E & Hk) & _). exists ps, pds. split; [exact E|].
    intros k Hlt. rewrite Q2. apply (Hk k Hlt).
  - destruct (m_damping m) as [g|] eqn:Eg; cbn [orate].
    + apply (K _ _ eq_refl). intros ts r Hs. destruct Hs as (_ & _ & _ & _ & _ & _ & _ & _ & Hg & _). rewrite Eg in Hg.
      destruct Hg as (ps & pds & E & Hk). exists ps, pds. split; [exact E|]. intros k Hlt. destruct (Hk k (j - (3 * n + 2))%nat Hlt ltac:(lia)) as [Hk1 _].
      unfold cv in Hk1. now replace (3 * n + 2 + (j - (3 * n + 2)))%nat with j in Hk1 by lia.
    + exists (fun _ => par_val (d_damp (m_spring m)) (j - (3 * n + 2))). split; [|split; [intros _ t; apply derivable_pt_lim_const|discriminate]].
      intros ts r Er Hne k Hk. destruct (Sp ts r Er Hne) as (_ & _ & _ & _ & _ & _ & _ & _ & Hg & _). rewrite Eg in Hg.
      destruct (Hg k (j - (3 * n + 2))%nat Hk ltac:(lia)) as [Hg1 _]. unfold cv in Hg1. now replace (3 * n + 2 + (j - (3 * n + 2)))%nat with j in Hg1 by lia.
Qed.

Variable T : R.
Definition bounded_comp (j : nat) (c : R) : Prop :=
  forall h ts r k, sampling T h ts -> ana pf m ts false = Ok r -> (k < length ts)%nat -> Rabs (at_ (a_xs r) k j) <= c.
Definition small_defect (j : nat) (c : R) : Prop :=
  forall h ts r k, sampling T h ts -> ana pf m ts false = Ok r -> (S k < length ts)%nat -> irr m j = false ->
    let d := nth (S k) ts 0 - nth k ts 0 in
    Rabs (at_ (a_xs r) (S k) j - at_ (a_xs r) k j - d * fieldc pf m j (nth k (a_xs r) [])) <= c * (d * d).
Lemma orate_lip j : (2 * n <= j)%nat -> irr m j = false -> lipschitz (orate (fst (own m j)) (snd (own m j))).
Proof.
  intros Hj. unfold irr. rewrite (proj2 (Nat.ltb_ge j (2 * n))) by lia. destruct (fst (own m j)) as [s|]; cbn [orate]; [apply rates_lip|intros _; apply lip_const].
Qed.
Lemma time_value down tau t : 0 < tau -> 0 <= t -> Rabs (if down : bool then Rmax 0 (1 - t / tau) else Rmin 1 (t / tau)) <= 1.
Proof.
  intros Ht H0. assert (0 <= t / tau) by (apply Rmult_le_pos; [trivial|]; left; now apply Rinv_0_lt_compat). apply Rabs_le. destruct down; unfold Rmax, Rmin;
  match goal with |- context [Rle_dec ?a ?b] => destruct (Rle_dec a b) end; lra.
Qed.
Lemma closed_bounds j : (2 * n <= j < N)%nat -> (exists c, 0 <= c /\ bounded_comp j c) /\ exists c, 0 <= c /\ small_defect j c.
Proof.
  intros Hj. destruct (closed j Hj) as (u & U1 & U2 & U3). destruct (irr m j) eqn:Hr.
  - destruct (U3 eq_refl) as (h & E & Ht & _ & Eu). split.
    + exists 1. split; [lra|]. intros h' ts r k Hg Er Hk. rewrite (U1 ts r Er (proj1 Hg) k Hk), Eu. apply time_value; [trivial|]. now apply (grid_mono T h').
    + exists 0. split; [lra|]. intros h' ts r k _ _ _ H. congruence.
  - destruct (one_step u (orate (fst (own m j)) (snd (own m j))) T (U2 eq_refl) (orate_lip j ltac:(lia) Hr)) as (B & C & PB & PC & HB & HC). split.
    + exists B. split; [trivial|]. intros h ts r k Hg Er Hk. rewrite (U1 ts r Er (proj1 Hg) k Hk). apply HB. now apply (grid_mono T h).
    + exists C. split; [trivial|]. intros h ts r k Hg Er Hk _. cbv zeta. unfold fieldc. rewrite (proj2 (Nat.ltb_ge j n)), (proj2 (Nat.ltb_ge j (2 * n))) by lia.
      change (nth j (nth k (a_xs r) []) 0) with (at_ (a_xs r) k j). rewrite (U1 ts r Er (proj1 Hg) (S k) Hk), (U1 ts r Er (proj1 Hg) k ltac:(lia)).
      pose proof (grid_mono T h ts Hg k ltac:(lia)). pose proof (grid_mono T h ts Hg (S k) Hk). destruct Hg as (_ & _ & _ & _ & Hs). specialize (Hs k Hk).
      specialize (HC (nth k ts 0) (nth (S k) ts 0 - nth k ts 0) ltac:(lra) ltac:(lra) ltac:(lra)).
      replace (nth k ts 0 + (nth (S k) ts 0 - nth k ts 0)) with (nth (S k) ts 0) in HC by ring. exact HC.
Qed.
(** the spring system *)
Lemma spring_exact j : (j < 2 * n)%nat -> small_defect j 0.
Proof.
  intros Hj h ts r k Hg Er Hk _. cbv zeta. destruct (ana_total pf m ts false W (proj1 Hg)) as (r' & E' & Hs). rewrite Er in E'. injection E' as <-.
  destruct Hs as (_ & _ & _ & _ & _ & _ & _ & Hgo & Hda & Hfo & _ & Hr & Hst). match goal with |- Rabs ?z <= _ => replace z with 0 end; [rewrite Rabs_R0; lra|].
  unfold fieldc. destruct (Nat.ltb_spec j n) as [C|C].
  - destruct (Hst k j Hk C) as [H1 _]. destruct (Hr k j ltac:(lia) C) as [H2 _]. unfold yv, zv in *. rewrite H1, H2. unfold at_. ring.
  - rewrite (proj2 (Nat.ltb_lt j (2 * n))) by trivial. set (i := (j - n)%nat). assert (Hi : (i < n)%nat) by (unfold i; lia). cbv zeta.
    destruct (Hst k i Hk Hi) as [_ H1]. destruct (Hr k i ltac:(lia) Hi) as [_ H2]. replace j with (n + i)%nat by (unfold i; lia).
    unfold zv in H1 at 1 2. rewrite H1, H2. destruct (Hfo k i ltac:(lia) Hi) as [F1 F2].
    replace (target m (gv n (a_xs r) k i) i) with (goal_now m (nth k (a_xs r) []) i).
    replace (cv n (a_xs r) k i) with (damping_now m (nth k (a_xs r) []) i).
    replace (at_ (a_forcing r) k i) with (forcing_now pf m (nth k (a_xs r) []) i).
    + unfold yv, zv, at_. ring.
    + rewrite F2, F1. reflexivity.
    + unfold damping_now. destruct (m_damping m); [reflexivity|]. symmetry. destruct (Hda k i ltac:(lia) Hi) as [Hd1 _]. exact Hd1.
    + unfold goal_now. destruct (m_goal m) eqn:Eg; [reflexivity|]. unfold target. rewrite (Pg Eg). symmetry. destruct (Hgo k i ltac:(lia) Hi) as [Hg1 _]. exact Hg1.
Qed.
Lemma spring_bounds j : (j < 2 * n)%nat -> exists c, 0 <= c /\ bounded_comp j c.
Proof.
  intros Hj. pose proof W as (Ht & _ & _ & _ & _ & _ & _ & _ & _ & _ & _ & HM & _).
  set (i := if Nat.ltb j n then j else (j - n)%nat). assert (Hi : (i < n)%nat) by (unfold i; destruct (Nat.ltb_spec j n); lia).
  destruct (proj1 (closed_bounds (2 * n + i) ltac:(lia))) as (Bg & Pbg & Hbg). destruct (proj1 (closed_bounds (3 * n) ltac:(lia))) as (Bp & Pbp & Hbp).
  destruct (proj1 (closed_bounds (3 * n + 1) ltac:(lia))) as (Ba & Pba & Hba). destruct (proj1 (closed_bounds (3 * n + 2 + i) ltac:(lia))) as (Bc & Pbc & Hbc).
  destruct (lip_bound (fun g => target m g i)) with (B := Bg) as (G & PG & HG).
  { unfold target. cbv zeta. destruct (m_req m); [|apply lip_id]. apply lip_plus; [apply lip_const|]. apply lip_mult; [apply lip_const|apply lip_id]. }
  destruct (lip_bound _ (Pl i Hi) Bp) as (Fp & PFp & HFp). set (K := par_val (d_spring (m_spring m)) i). set (M := par_val (d_mass (m_spring m)) i).
  set (a0 := Rabs (/ m_tau m)). set (a1 := Rabs (K / (M * m_tau m))). set (a2 := Rabs (/ (M * m_tau m))). set (F := Fp * Ba * Rabs (factor m i)).
  assert (P0 : 0 <= a0 /\ 0 <= a1 /\ 0 <= a2 /\ 0 <= F).
  { repeat split; try apply Rabs_pos. unfold F. apply Rmult_le_pos; [now apply Rmult_le_pos|apply Rabs_pos]. }
  destruct P0 as (P0 & P1 & P2 & PF). pose proof (Rmult_le_pos _ _ P2 Pbc) as P2c. pose proof (Rmult_le_pos _ _ P1 PG) as P1g. pose proof (Rmult_le_pos _ _ P0 PF) as P0f.
  set (a := a0 + a1 + a2 * Bc). set (b := a1 * G + a0 * F). set (s0 := Rabs (nth i (d_init (m_spring m)) 0) + Rabs (nth (n + i) (d_init (m_spring m)) 0)).
  assert (PS : 0 <= s0) by (unfold s0; pose proof (Rabs_pos (nth i (d_init (m_spring m)) 0)); pose proof (Rabs_pos (nth (n + i) (d_init (m_spring m)) 0)); lra).
  assert (Pa : 0 <= a) by (unfold a; lra). assert (Pb : 0 <= b) by (unfold b; lra).
  exists ((s0 + b * Rabs T) * exp (a * Rabs T)). pose proof (Rmult_le_pos _ _ Pb (Rabs_pos T)) as PbT. pose proof (exp_pos (a * Rabs T)) as Pe.
  split; [apply Rmult_le_pos; lra|]. intros h ts r k Hg Er Hk.
  destruct (ana_total pf m ts false W (proj1 Hg)) as (r' & E' & Hs). rewrite Er in E'. injection E' as <-.
  destruct Hs as (_ & _ & _ & _ & _ & _ & _ & _ & _ & Hfo & H0 & Hr & Hst). set (xs := a_xs r) in *.
  pose proof (growth (fun k => Rabs (yv xs k i) + Rabs (zv n xs k i)) (fun k => nth k ts 0) a b (length ts - 1) Pa Pb) as Gr.
  assert (Q : nth 0 ts 0 <= nth k ts 0 /\ Rabs (yv xs k i) + Rabs (zv n xs k i) <= (Rabs (yv xs 0 i) + Rabs (zv n xs 0 i) + b * (nth k ts 0 - nth 0 ts 0)) * exp (a * (nth k ts 0 - nth 0 ts 0))).
  { apply Gr; [| | |lia].
    - intros k'. pose proof (Rabs_pos (yv xs k' i)). pose proof (Rabs_pos (zv n xs k' i)). lra.
    - intros k' Hk'. destruct Hg as (_ & _ & _ & _ & Hg). apply Hg. lia.
    - intros k' Hk'. cbv beta. assert (Hd : 0 <= nth (S k') ts 0 - nth k' ts 0) by (destruct Hg as (_ & _ & _ & _ & Hg); apply Hg; lia).
      set (d := nth (S k') ts 0 - nth k' ts 0) in *. destruct (Hst k' i ltac:(lia) Hi) as [S1 S2]. fold d in S1, S2. destruct (Hr k' i ltac:(lia) Hi) as [R1 R2].
      destruct (Hfo k' i ltac:(lia) Hi) as [F1 F2]. cbv iota in F1. rewrite F1 in F2.
      pose proof (Hbg h ts r k' Hg Er ltac:(lia)) as Vg. pose proof (Hbp h ts r k' Hg Er ltac:(lia)) as Vp. pose proof (Hba h ts r k' Hg Er ltac:(lia)) as Va. pose proof (Hbc h ts r k' Hg Er ltac:(lia)) as Vc.
      fold xs in Vg, Vp, Va, Vc.
      change (at_ xs k' (2 * n + i)) with (gv n xs k' i) in Vg. change (at_ xs k' (3 * n)) with (pv n xs k') in Vp. change (at_ xs k' (3 * n + 1)) with (av n xs k') in Va. change (at_ xs k' (3 * n + 2 + i)) with (cv n xs k' i) in Vc.
      rewrite R1 in S1. rewrite R2 in S2. set (y := yv xs k' i) in *. set (z := zv n xs k' i) in *. set (c := cv n xs k' i) in *. set (f := at_ (a_forcing r) k' i) in *.
      set (g := target m (gv n xs k' i) i) in *. assert (Vt : Rabs g <= G) by (unfold g; now apply HG).
      assert (Vf : Rabs f <= F). { rewrite F2. unfold F. apply Rabs_mult_le; [|lra]. apply Rabs_mult_le; [|exact Va]. now apply HFp. }
      assert (Ay : Rabs (z / m_tau m) <= a0 * Rabs z) by (unfold Rdiv, a0; rewrite Rabs_mult; lra).
      assert (Az : Rabs (accel m i y z g c f) <= a1 * (Rabs y + G) + a2 * (Bc * Rabs z) + a0 * F).
      { unfold accel. fold K M. replace ((- K * (y - g) - c * z) / (M * m_tau m) + f / m_tau m) with (- (K / (M * m_tau m)) * (y - g) + / (M * m_tau m) * (- (c * z)) + / m_tau m * f) by (unfold Rdiv; ring).
        refine (Rle_trans _ _ _ (Rabs_tri3 _ _ _) _). apply Rplus_le_compat; [apply Rplus_le_compat|].
        - apply Rabs_mult_le; [rewrite Rabs_Ropp; unfold a1; lra|]. unfold Rminus. refine (Rle_trans _ _ _ (Rabs_triang _ _) _). rewrite Rabs_Ropp. lra.
        - apply Rabs_mult_le; [unfold a2; lra|]. rewrite Rabs_Ropp. apply Rabs_mult_le; [exact Vc|lra].
        - apply Rabs_mult_le; [unfold a0; lra|exact Vf]. }
      rewrite S1, S2. pose proof (Rabs_pos y) as Py. pose proof (Rabs_pos z) as Pz.
      assert (T1 : Rabs (y + d * (z / m_tau m)) <= Rabs y + d * (a0 * Rabs z)).
      { refine (Rle_trans _ _ _ (Rabs_triang _ _) _). apply Rplus_le_compat_l. apply Rabs_mult_le; [rewrite Rabs_pos_eq; lra|exact Ay]. }
      assert (T2 : Rabs (z + d * accel m i y z g c f) <= Rabs z + d * (a1 * (Rabs y + G) + a2 * (Bc * Rabs z) + a0 * F)).
      { refine (Rle_trans _ _ _ (Rabs_triang _ _) _). apply Rplus_le_compat_l. apply Rabs_mult_le; [rewrite Rabs_pos_eq; lra|exact Az]. }
      assert (T3 : d * (a0 * Rabs z) + d * (a1 * (Rabs y + G) + a2 * (Bc * Rabs z) + a0 * F) <= d * (a * (Rabs y + Rabs z) + b)).
      { rewrite <- Rmult_plus_distr_l. apply Rmult_le_compat_l; [trivial|]. unfold a, b. pose proof (Rmult_le_pos _ _ P0 Py). pose proof (Rmult_le_pos _ _ P1 Pz). pose proof (Rmult_le_pos _ _ P2c Py). lra. }
      lra. }
  destruct Q as [_ Q]. destruct (H0 i Hi) as [Y0 Z0]. rewrite Y0, Z0 in Q. fold s0 in Q. pose proof (grid_mono T h ts Hg k Hk) as [Tk0 TkT].
  assert (E0 : nth 0 ts 0 = 0) by apply Hg. rewrite E0, Rminus_0_r in Q. pose proof (Rle_abs T) as AT.
  assert (Qb : (s0 + b * nth k ts 0) * exp (a * nth k ts 0) <= (s0 + b * Rabs T) * exp (a * Rabs T)).
  { apply Rmult_le_compat; [pose proof (Rmult_le_pos _ _ Pb Tk0); lra|left; apply exp_pos|apply Rplus_le_compat_l, Rmult_le_compat_l; lra|].
    assert (Ee : a * nth k ts 0 <= a * Rabs T) by (apply Rmult_le_compat_l; lra). destruct Ee as [Ee|Ee]; [left; now apply exp_increasing|rewrite Ee; lra]. }
  pose proof (Rabs_pos (yv xs k i)). pose proof (Rabs_pos (zv n xs k i)). destruct (Nat.lt_ge_cases j n) as [C|C].
  - assert (Ei : i = j) by (unfold i; now rewrite (proj2 (Nat.ltb_lt j n) C)). assert (Ex : at_ xs k j = yv xs k i) by (rewrite Ei; reflexivity). rewrite Ex. apply Rle_trans with (Rabs (yv xs k i) + Rabs (zv n xs k i)); [lra|]. exact (Rle_trans _ _ _ Q Qb).
  - assert (Ei : (n + i)%nat = j) by (unfold i; rewrite (proj2 (Nat.ltb_ge j n) C); lia). assert (Ex : at_ xs k j = zv n xs k i) by (unfold zv; rewrite Ei; reflexivity). rewrite Ex. apply Rle_trans with (Rabs (yv xs k i) + Rabs (zv n xs k i)); [lra|]. exact (Rle_trans _ _ _ Q Qb).
Qed.
Lemma all_bounds : exists B C, 0 <= B /\ 0 <= C /\ forall j, (j < N)%nat -> bounded_comp j B /\ small_defect j C.
Proof.
  destruct (max_all bounded_comp) with (N := N) as (B & PB & HB).
  - intros j a b Hab H h ts r k H1 H2 H3. specialize (H h ts r k H1 H2 H3). lra.
  - intros j Hj. destruct (Nat.lt_ge_cases j (2 * n)) as [C|C]; [now apply spring_bounds|]. now apply closed_bounds.
  - destruct (max_all small_defect) with (N := N) as (C & PC & HC).
    + intros j a b Hab H h ts r k H1 H2 H3 H4. specialize (H h ts r k H1 H2 H3 H4). cbv zeta in *. refine (Rle_trans _ _ _ H _).
      apply Rmult_le_compat_r; [apply Rle_0_sqr|trivial].
    + intros j Hj. destruct (Nat.lt_ge_cases j (2 * n)) as [C|C]; [|now apply closed_bounds]. exists 0. split; [lra|now apply spring_exact].
    + exists B, C. split; [trivial|]. split; [trivial|]. intros j Hj. split; [now apply HB|now apply HC].
Qed.
End Ana.
