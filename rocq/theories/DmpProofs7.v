(** Proofs about DMPs: a DMP whose function approximators fit the targets reproduces the
    demonstration. *)
From Coq Require Import String.
From Verif Require Import Base BaseLemmas DynModel DynSpec DynProofs ParamModel TrajModel DmpModel DmpSpec DmpProofs DmpProofs2 DmpProofs3 DmpProofs4 DmpProofs5 DmpProofs6.
Open Scope R_scope.

Section S.
Variable pf : nat -> list (string * pval) -> R -> res R.

Lemma ana_total m ts suppress : wf pf m -> ts <> [] -> exists r, ana pf m ts suppress = Ok r /\ rollout_spec pf m ts suppress r.
Proof.
  intros W Hne. destruct (wf_parts _ _ W) as (G & Gd & P & Pd & A & Ad & D & Dd & C & Cd & Q).
  destruct ts as [|t ts]; [congruence|].
  pose proof (ana_eq pf m G Gd P Pd A Ad D Dd C Cd W Q suppress t ts) as E.
  eexists. split; [exact E|]. apply (ana_spec pf m G Gd P Pd A Ad D Dd C Cd W Q). exact E.
Qed.

(** the targets in terms of the analytical solution *)
Lemma targets_spec m t phs rows r : wf pf m -> demo (m_dim m) t -> tj_ts t <> [] ->
  targets pf m t = Ok (phs, rows) -> ana pf m (tj_ts t) false = Ok r ->
  let n := m_dim m in
  length phs = length (tj_ts t) /\ length rows = length (tj_ts t) /\
  forall k, (k < length (tj_ts t))%nat -> nth k phs 0 = pv n (a_xs r) k /\ length (nth k rows []) = n /\
   forall i, (i < n)%nat ->
    av n (a_xs r) k <> 0 /\ factor m i <> 0 /\
    at_ rows k i * av n (a_xs r) k * factor m i =
      m_tau m * m_tau m * at_ (mrows (tj_ydds t)) k i +
      (par_val (d_spring (m_spring m)) i * (at_ (mrows (tj_ys t)) k i - target m (gv n (a_xs r) k i) i)
       + cv n (a_xs r) k i * (m_tau m * at_ (mrows (tj_yds t)) k i)) / par_val (d_mass (m_spring m)) i.
Proof.
  intros W Dm Hne Ht Ha. cbv zeta.
  destruct (wf_parts _ _ W) as (G & Gd & P & Pd & A & Ad & D & Dd & C & Cd & Q).
  destruct (targets_ok pf m G Gd P Pd A Ad D Dd C Cd W Q t Dm phs rows Hne Ht) as (Ep & Hl & Hk).
  split; [rewrite Ep; apply map_length|]. split; [exact Hl|]. intros k Hlt.
  destruct (Hk k Hlt) as (H0 & H1 & H2).
  assert (N : pv (m_dim m) (a_xs r) k = nth 0 (P (nth k (tj_ts t) 0)) 0 /\
    av (m_dim m) (a_xs r) k = nth 0 (A (nth k (tj_ts t) 0)) 0 /\ forall i, (i < m_dim m)%nat ->
    gv (m_dim m) (a_xs r) k i = nth i (G (nth k (tj_ts t) 0)) 0 /\
    cv (m_dim m) (a_xs r) k i = nth i (C (nth k (tj_ts t) 0)) 0).
  { destruct (tj_ts t) as [|t0 ts] eqn:ET; [congruence|].
    rewrite (ana_eq pf m G Gd P Pd A Ad D Dd C Cd W Q false t0 ts) in Ha.
    apply (f_equal (fun x => match x with Ok y => y | Err _ => r end)) in Ha. cbv beta iota in Ha. subst r. cbn [a_xs].
    set (L := (t0, d_init (m_spring m)) :: states pf m G P A C false t0 (d_init (m_spring m)) ts).
    assert (Hx : length (snd (nth k L (0, []))) = (2 * m_dim m)%nat) by (apply (L_len pf m G P A C W false t0 ts k Hlt)).
    pose proof (nth_asm _ _ _ _ _ _ (xr_layout m G Gd P Pd A Ad D Dd C Cd Q _ Hx)) as (_ & _ & N3 & N4 & N5 & N6).
    assert (HL : (k < length L)%nat) by (unfold L; rewrite (L_length pf m G P A C false t0 ts); exact Hlt).
    assert (Et : fst (nth k L (0, [])) = nth k (t0 :: ts) 0) by (apply (L_time pf m G P A C false t0 ts k Hlt)).
    rewrite <- Et. unfold pv, av, gv, cv. split; [rewrite (at_map _ _ _ _ (0, [])) by exact HL; exact N4|].
    split; [rewrite (at_map _ _ _ _ (0, [])) by exact HL; exact N5|].
    intros i Hi. rewrite !(at_map _ _ _ _ (0, [])) by exact HL. split; [apply N3, Hi|apply N6, Hi]. }
  destruct N as (N1 & N2 & N3).
  split; [rewrite Ep, (nth_map_l _ _ _ 0) by trivial; now rewrite N1|]. split; [exact H0|]. intros i Hi.
  destruct (H2 i Hi) as [Hf E]. destruct (N3 i Hi) as [N4 N5]. rewrite N2, N4, N5. split; [exact H1|]. split; [exact Hf|].
  rewrite E. unfold ftarget, time in *. set (ga := nth 0 (A (nth k (tj_ts t) 0)) 0) in *. clearbody ga.
  assert (par_val (d_mass (m_spring m)) i <> 0) by now apply W.
  field. repeat split; trivial.
Qed.

Lemma forcing_balance tau ydd K e c yd M : tau <> 0 -> M <> 0 ->
  (- K * e - c * (tau * yd)) / (M * tau) + (tau * tau * ydd + (K * e + c * (tau * yd)) / M) / tau = tau * ydd.
Proof. intros. field. now split. Qed.

Lemma reproduce m t phs rows : wf pf m -> demo (m_dim m) t -> tj_ts t <> [] ->
  targets pf m t = Ok (phs, rows) -> fits pf m phs rows -> euler_demo (m_dim m) t ->
  (forall i, (i < m_dim m)%nat -> nth i (d_init (m_spring m)) 0 = at_ (mrows (tj_ys t)) 0 i /\
                                  nth (m_dim m + i) (d_init (m_spring m)) 0 = 0) ->
  exists r, ana pf m (tj_ts t) false = Ok r /\
    forall k i, (k < length (tj_ts t))%nat -> (i < m_dim m)%nat ->
      yv (a_xs r) k i = at_ (mrows (tj_ys t)) k i /\
      yv (a_xds r) k i = at_ (mrows (tj_yds t)) k i /\
      zv (m_dim m) (a_xds r) k i / m_tau m = at_ (mrows (tj_ydds t)) k i.
Proof.
  intros W Dm Hne Ht Hf He Hi0. destruct (ana_total m (tj_ts t) false W Hne) as (r & Er & Hr).
  exists r. split; [exact Er|].
  destruct (targets_spec m t phs rows r W Dm Hne Ht Er) as (Lp & _ & Hk).
  destruct Hr as (_ & _ & _ & _ & _ & _ & _ & _ & _ & Hfo & H0 & Hrate & Hstep). cbv zeta in *.
  set (n := m_dim m) in *. set (tau := m_tau m) in *.
  assert (Htau : tau <> 0) by apply W.
  (* rates from states *)
  assert (Hacc : forall k i, (k < length (tj_ts t))%nat -> (i < n)%nat ->
     yv (a_xs r) k i = at_ (mrows (tj_ys t)) k i -> zv n (a_xs r) k i = tau * at_ (mrows (tj_yds t)) k i ->
     yv (a_xds r) k i = at_ (mrows (tj_yds t)) k i /\ zv n (a_xds r) k i = tau * at_ (mrows (tj_ydds t)) k i).
  { intros k i Hlt Hi Ey Ez. destruct (Hrate k i Hlt Hi) as [R1 R2]. rewrite R1, R2, Ey, Ez.
    split; [field; exact Htau|]. destruct (Hfo k i Hlt Hi) as [F1 F2]. rewrite F2, F1.
    destruct (Hk k Hlt) as (Kp & _ & Ki). destruct (Ki i Hi) as (_ & _ & Ke).
    rewrite <- Kp, (Hf k i ltac:(lia) Hi), Ke. unfold accel. apply forcing_balance; [exact Htau|]. now apply W. }
  assert (Hall : forall k i, (k < length (tj_ts t))%nat -> (i < n)%nat ->
     yv (a_xs r) k i = at_ (mrows (tj_ys t)) k i /\ zv n (a_xs r) k i = tau * at_ (mrows (tj_yds t)) k i).
  { induction k as [|k IH]; intros i Hlt Hi.
    - destruct (H0 i Hi) as [-> ->]. destruct (Hi0 i Hi) as [-> ->]. destruct (He i Hi) as [-> _]. split; [reflexivity|ring].
    - destruct (IH i ltac:(lia) Hi) as [Ey Ez]. destruct (Hacc k i ltac:(lia) Hi Ey Ez) as [A1 A2].
      destruct (Hstep k i Hlt Hi) as [S1 S2]. rewrite S1, S2, Ey, Ez, A1, A2.
      destruct (He i Hi) as [_ He']. destruct (He' k Hlt) as [-> ->]. split; [reflexivity|ring]. }
  intros k i Hlt Hi. destruct (Hall k i Hlt Hi) as [Ey Ez]. destruct (Hacc k i Hlt Hi Ey Ez) as [A1 A2].
  split; [exact Ey|]. split; [exact A1|]. rewrite A2. field. exact Htau.
Qed.

Lemma at_demonstrated m t phs rows r : wf pf m -> synced m -> plain_goal m -> demo (m_dim m) t -> tj_ts t <> [] ->
  targets pf m t = Ok (phs, rows) -> fits pf m phs rows -> ana pf m (tj_ts t) false = Ok r ->
  forall k x, (k < length (tj_ts t))%nat -> dmp_regular m (nth k (tj_ts t) 0) -> length x = dim_x m ->
    (forall i, (i < m_dim m)%nat -> nth i x 0 = at_ (mrows (tj_ys t)) k i /\
                                    nth (m_dim m + i) x 0 = m_tau m * at_ (mrows (tj_yds t)) k i) ->
    (forall j, (2 * m_dim m <= j)%nat -> nth j x 0 = at_ (a_xs r) k j) ->
    exists m' xd, m_diffeq pf m x = Ok (m', xd) /\
      forall i, (i < m_dim m)%nat -> nth i xd 0 = at_ (mrows (tj_yds t)) k i /\
                                     nth (m_dim m + i) xd 0 / m_tau m = at_ (mrows (tj_ydds t)) k i.
Proof.
  intros W Sy Pl Dm Hne Ht Hf Er k x Hlt Hreg Hx Hyz Hrest.
  destruct (wf_parts _ _ W) as (G & Gd & P & Pd & A & Ad & D & Dd & C & Cd & Q).
  destruct (targets_spec m t phs rows r W Dm Hne Ht Er) as (Lp & _ & Hk).
  destruct (tj_ts t) as [|t0 ts] eqn:ET; [congruence|].
  pose proof Er as Er'.
  rewrite (ana_eq pf m G Gd P Pd A Ad D Dd C Cd W Q false t0 ts) in Er.
  apply (f_equal (fun x => match x with Ok y => y | Err _ => r end)) in Er. cbv beta iota in Er.
  set (L := (t0, d_init (m_spring m)) :: states pf m G P A C false t0 (d_init (m_spring m)) ts) in *.
  assert (HLx : length (snd (nth k L (0, []))) = (2 * m_dim m)%nat) by (apply (L_len pf m G P A C W false t0 ts k Hlt)).
  assert (HL : (k < length L)%nat) by (unfold L; rewrite (L_length pf m G P A C false t0 ts); exact Hlt).
  assert (Et : fst (nth k L (0, [])) = nth k (t0 :: ts) 0) by (apply (L_time pf m G P A C false t0 ts k Hlt)).
  set (T := nth k (t0 :: ts) 0) in *.
  pose proof (nth_asm _ _ _ _ _ _ (xr_layout m G Gd P Pd A Ad D Dd C Cd Q _ HLx)) as (_ & _ & N3 & N4 & N5 & N6).
  set (x0 := firstn (2 * m_dim m) x).
  assert (Lx0 : length x0 = (2 * m_dim m)%nat) by (unfold x0; rewrite firstn_length, Hx; unfold dim_x; lia).
  pose proof (xr_layout m G Gd P Pd A Ad D Dd C Cd Q (T, x0) Lx0) as LT. cbn [fst snd] in LT.
  pose proof (nth_asm _ _ _ _ _ _ LT) as (M1 & M2 & M3 & M4 & M5 & M6).
  assert (Nx0 : forall j, (j < 2 * m_dim m)%nat -> nth j x0 0 = nth j x 0).
  { intros j Hj. unfold x0. rewrite <- (firstn_skipn (2 * m_dim m) x) at 2. rewrite app_nth1; [reflexivity|]. fold x0. lia. }
  assert (Eat : forall j, at_ (a_xs r) k j = nth j (asm (snd (nth k L (0, []))) (G T) (P T) (A T) (C T)) 0).
  { intros j. rewrite <- Er. cbn [a_xs]. rewrite (at_map _ _ _ _ (0, [])) by exact HL. unfold xrow. now rewrite Et. }
  assert (Exr : x = xrow G P A C (T, x0)).
  { unfold xrow. cbn [fst snd]. apply (nth_ext _ _ 0 0).
    - rewrite Hx. symmetry. apply (asm_length m (goal_dim pf m W)), LT.
    - intros j Hj. destruct (Nat.lt_ge_cases j (2 * m_dim m)) as [Hc|Hc].
      + rewrite <- Nx0 by trivial. unfold asm. now rewrite app_nth1 by lia.
      + rewrite Hrest, Eat by trivial. unfold asm. rewrite app_nth2 by (rewrite HLx; exact Hc). rewrite (app_nth2 x0) by (rewrite Lx0; exact Hc). now rewrite HLx, Lx0. }
  rewrite Exr. destruct (diffeq_row pf m G Gd P Pd A Ad D Dd C Cd W Q false (T, x0) eq_refl Sy Pl Lx0 Hreg) as [m' Em].
  exists m', (xdrow pf m G Gd P Pd A Ad C false Cd (T, x0)). split; [exact Em|].
  intros i Hi.
  pose proof (nth_asm _ _ _ _ _ _ (xdr_layout pf m G Gd P Pd A Ad D Dd C Cd Q false (T, x0))) as (V1 & V2 & _).
  unfold xdrow. rewrite V1, V2 by trivial. cbn [fst snd]. unfold rate.
  destruct (nth_accs m x0 (tgt m G T) (C T) (fol pf m P A false T) i Hi) as [U1 U2].
  rewrite U1, U2. rewrite !Nx0 by lia. destruct (Hyz i Hi) as [Y1 Y2]. rewrite Y1, Y2.
  assert (Htau : m_tau m <> 0) by apply W. split; [field; exact Htau|].
  unfold tgt, fol. rewrite !nth_map_seq by trivial. unfold fo, fav.
  destruct (Hk k Hlt) as (Kp & _ & Ki). destruct (Ki i Hi) as (_ & _ & Ke).
  assert (EP : nth 0 (P T) 0 = pv (m_dim m) (a_xs r) k).
  { unfold pv. rewrite Eat. rewrite Et in N4. now rewrite N4. }
  assert (EA : nth 0 (A T) 0 = av (m_dim m) (a_xs r) k).
  { unfold av. rewrite Eat. rewrite Et in N5. now rewrite N5. }
  assert (EG : nth i (G T) 0 = gv (m_dim m) (a_xs r) k i).
  { unfold gv. rewrite Eat. rewrite Et in N3. now rewrite N3. }
  assert (EC : nth i (C T) 0 = cv (m_dim m) (a_xs r) k i).
  { unfold cv. rewrite Eat. rewrite Et in N6. now rewrite N6. }
  rewrite EP, <- Kp. rewrite (Hf k i) by (trivial; rewrite Lp; exact Hlt). rewrite EA, EG, EC, Ke.
  unfold accel. rewrite forcing_balance by (trivial; now apply W). field. exact Htau.
Qed.
End S.
