(** Proofs about DMPs: integrate_start, and the operations which preserve well-formedness. *)
From Coq Require Import String.
From Verif Require Import Base BaseLemmas DynModel DynSpec DynProofs ParamModel TrajModel DmpModel DmpSpec DmpProofs DmpProofs2 DmpProofs3.
Open Scope R_scope.

(** replacing the attractor and the damping coefficient of the spring *)
Definition respring (m : dmp) (g : list R) (p : param) : dmp :=
  upd_spring m (Dsys (d_tau (m_spring m)) (d_init (m_spring m)) g p (d_spring (m_spring m)) (d_mass (m_spring m))
                     (d_dimy (m_spring m))) (m_goal m).
Lemma respring_wf pf m g p : wf pf m -> par_ok p (m_dim m) -> wf pf (respring m g p).
Proof.
  intros (A1 & A2 & A3 & A4 & A5 & A6 & A7 & A8 & A9 & A10 & A11 & A12 & A13) Hp.
  unfold wf, respring, upd_spring, fas_ok in *. cbn in *. repeat (split; trivial).
Qed.
Lemma respring_parts m g p G Gd P Pd A Ad D Dd C Cd : (m_damping m = None -> p = d_damp (m_spring m)) ->
  parts m G Gd P Pd A Ad D Dd C Cd -> parts (respring m g p) G Gd P Pd A Ad D Dd C Cd.
Proof.
  intros H Q. destruct Q. constructor; unfold respring, upd_spring; cbn; trivial.
  - destruct (m_damping m); trivial. now rewrite H.
  - destruct (m_damping m); trivial. now rewrite H.
Qed.

Section Start.
Variable pf : nat -> list (string * pval) -> R -> res R.
Variable m : dmp.
Variables G Gd P Pd A Ad D Dd C Cd : R -> list R.
Hypothesis W : wf pf m.
Hypothesis Q : parts m G Gd P Pd A Ad D Dd C Cd.
Hypothesis Sy : synced m.
Hypothesis Pl : plain_goal m.
Hypothesis R0 : dmp_regular m 0.

Lemma start_ok : exists m', m_start pf m None =
  Ok (m', xrow G P A C (0, d_init (m_spring m)), xdrow pf m G Gd P Pd A Ad C false Cd (0, d_init (m_spring m))).
Proof.
  pose proof (goal_dim pf m W) as GD. destruct R0 as (R1 & R2 & R3 & R4).
  destruct (pt_0 _ _ _ _ _ _ _ _ _ _ _ Q) as (Z1 & Z2 & Z3 & Z4).
  pose proof (zeros_layout m) as (L1 & L2 & L3 & L4 & L5).
  unfold m_start. cbv zeta. cbn [bind].
  assert (E1 : match m_goal m with None => Ok (m_attr m) | Some g => let* _ := sub_diffeq g (sub_init g) in Ok (sub_init g) end = Ok (G 0)).
  { pose proof (pt_g _ _ _ _ _ _ _ _ _ _ _ Q) as Qg. destruct (m_goal m) as [g|].
    - rewrite <- Z3, Qg by exact R3. reflexivity.
    - now destruct (Qg 0) as [-> _]. }
  rewrite E1. cbn [bind]. rewrite (asm_zero m GD).
  rewrite (put_goal m GD (G 0) (G 0)) by (repeat split; trivial; apply fit_same, Q). cbn [bind].
  rewrite (get_goal m GD) by (repeat split; trivial; apply Q). cbn [bind].
  rewrite (scale_tgt pf m G Gd P Pd A Ad D Dd C Cd W Q). cbn [bind].
  rewrite (spring_attr pf m W) by apply tgt_length. cbn [bind].
  set (sp := Dsys (d_tau (m_spring m)) (d_init (m_spring m)) (tgt m G 0) (d_damp (m_spring m)) (d_spring (m_spring m)) (d_mass (m_spring m)) (d_dimy (m_spring m))).
  assert (E2 : exists pr, match m_damping m with
       | None => let* full_damp := full (m_dim m) (d_damp sp) in
                 let* x := put_ix (ix_damping m) full_damp (asm (repeat 0 (2 * m_dim m)) (G 0) [0] [0] (repeat 0 (m_dim m))) in
                 Ok (x, sp)
       | Some ds => let* _ := sub_diffeq ds (sub_init ds) in
                    let* x := put_ix (ix_damping m) (sub_init ds) (asm (repeat 0 (2 * m_dim m)) (G 0) [0] [0] (repeat 0 (m_dim m))) in
                    let* xda := get_ix (ix_damping m) x in
                    Ok (x, d_set_damp sp (PVec xda)) end =
       Ok (asm (repeat 0 (2 * m_dim m)) (G 0) [0] [0] (C 0), d_set_damp sp pr) /\
       par_ok pr (m_dim m) /\ (forall i, (i < m_dim m)%nat -> par_val pr i = nth i (C 0) 0) /\
       (m_damping m = None -> pr = d_damp (m_spring m))).
  { pose proof (pt_c _ _ _ _ _ _ _ _ _ _ _ Q) as Qc. destruct (m_damping m) as [g|].
    - exists (PVec (C 0)). destruct (Qc 0) as (E & _ & Qd). rewrite E in Z4. rewrite <- Z4, Qd by exact R4. cbn [bind].
      rewrite (put_damping m GD (C 0) (C 0)).
      2:{ repeat split; trivial; apply Q. }
      2:{ apply fit_same. exact (C_len m _ _ _ _ _ _ _ _ _ _ Q 0). }
      cbn [bind]. rewrite (get_damping m GD).
      2:{ repeat split; trivial; try apply Q. exact (C_len m _ _ _ _ _ _ _ _ _ _ Q 0). }
      repeat split; [exact (C_len m _ _ _ _ _ _ _ _ _ _ Q 0)|discriminate].
    - exists (d_damp (m_spring m)). destruct Qc as [Q1 _]. change (d_damp sp) with (d_damp (m_spring m)).
      assert (EF : full (m_dim m) (d_damp (m_spring m)) = Ok (C 0)).
      { assert (Hd : par_ok (d_damp (m_spring m)) (m_dim m)) by apply W.
        assert (HC : C 0 = map (par_val (d_damp (m_spring m))) (seq 0 (m_dim m))).
        { rewrite (list_eq_map_nth 0 (C 0)). rewrite (C_len m _ _ _ _ _ _ _ _ _ _ Q 0).
          apply map_ext_in. intros i Hi. apply in_seq in Hi. apply Q1. lia. }
        rewrite HC. unfold full. destruct (d_damp (m_spring m)) as [r|l]; cbn [par_val par_ok] in *.
        - now rewrite map_const_seq.
        - rewrite fit_same by exact Hd. f_equal. rewrite <- Hd. apply list_eq_map_nth. }
      rewrite EF. cbn [bind]. rewrite (put_damping m GD (C 0) (C 0)).
      2:{ repeat split; trivial; apply Q. }
      2:{ apply fit_same. exact (C_len m _ _ _ _ _ _ _ _ _ _ Q 0). }
      split; [reflexivity|]. split; [apply W|]. split; [|reflexivity]. intros i Hi. now rewrite Q1. }
  destruct E2 as (pr & E2 & Hpr & Hpv & Hpn). rewrite E2. clear E2. cbn [bind].
  assert (HX : length (d_init (m_spring m)) = (2 * m_dim m)%nat) by apply W.
  destruct (spring_diffeq pf m W sp (d_init (m_spring m)) (tgt m G 0) pr (C 0)) as (xd & Ed & _); trivial.
  { apply (spring_attr pf m W), tgt_length. }
  { apply tgt_length. }
  change (d_init (d_set_damp sp pr)) with (d_init (m_spring m)). rewrite Ed. cbn [bind].
  pose proof (C_len m _ _ _ _ _ _ _ _ _ _ Q 0) as LC. pose proof (pt_G _ _ _ _ _ _ _ _ _ _ _ Q 0) as LG.
  pose proof (pt_P _ _ _ _ _ _ _ _ _ _ _ Q 0) as LP. pose proof (pt_A _ _ _ _ _ _ _ _ _ _ _ Q 0) as LA.
  rewrite (put_spring m _ (d_init (m_spring m))) by (first [now apply fit_same | now repeat split]). cbn [bind].
  rewrite <- Z1, <- Z2. rewrite (pt_p _ _ _ _ _ _ _ _ _ _ _ Q) by exact R1. cbn [bind].
  rewrite (put_phase m GD _ (P 0)) by (first [now apply fit_same | now repeat split]). cbn [bind].
  rewrite (pt_a _ _ _ _ _ _ _ _ _ _ _ Q) by exact R2. cbn [bind].
  rewrite (put_gating m GD _ (A 0)) by (first [now apply fit_same | now repeat split]). cbn [bind].
  change (upd_spring m (d_set_damp sp pr) (m_goal m)) with (respring m (tgt m G 0) pr).
  destruct (diffeq_row pf (respring m (tgt m G 0) pr) G Gd P Pd A Ad D Dd C Cd (respring_wf _ _ _ _ W Hpr)
    (respring_parts _ _ _ _ _ _ _ _ _ _ _ _ _ Hpn Q) false (0, d_init (m_spring m)) eq_refl Sy Pl HX (conj R1 (conj R2 (conj R3 R4))))
    as [m' Em].
  change (asm (d_init (m_spring m)) (G 0) (P 0) (A 0) (C 0)) with (xrow G P A C (0, d_init (m_spring m))).
  rewrite Em. cbn [bind fst snd]. exists m'. reflexivity.
Qed.
End Start.
