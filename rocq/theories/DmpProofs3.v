(** Proofs about DMPs: the result of analytical_solution satisfies its specification and the
    differential equation of the DMP. *)
From Coq Require Import String.
From Verif Require Import Base BaseLemmas DynModel DynSpec DynProofs ParamModel TrajModel DmpModel DmpSpec DmpProofs DmpProofs2.
Open Scope R_scope.

(** the parts of a well-formed DMP as functions of time *)
Record parts (m : dmp) (G Gd P Pd A Ad D Dd C Cd : R -> list R) : Prop := Parts {
  pt_G : forall t, length (G t) = m_dim m;
  pt_Gd : forall t, length (Gd t) = m_dim m;
  pt_P : forall t, length (P t) = 1%nat;
  pt_Pd : forall t, length (Pd t) = 1%nat;
  pt_A : forall t, length (A t) = 1%nat;
  pt_Ad : forall t, length (Ad t) = 1%nat;
  pt_D : forall t, fit (m_dim m) (D t) = Ok (C t);
  pt_Dd : forall t, fit (m_dim m) (Dd t) = Ok (Cd t);
  pt_EP : forall ts, sub_ana (m_phase m) ts = Ok (map P ts, map Pd ts);
  pt_EA : forall ts, sub_ana (m_gating m) ts = Ok (map A ts, map Ad ts);
  pt_EG : forall ts,
    match m_goal m with
    | None => Ok (map (fun _ => m_attr m) ts, map (fun _ => repeat 0 (length (m_attr m))) ts)
    | Some g => sub_ana g ts
    end = Ok (map G ts, map Gd ts);
  pt_ED : forall ts,
    match m_damping m with
    | None => let p := damp_row (d_damp (m_spring m)) in
              Ok (map (fun _ => p) ts, map (fun _ => repeat 0 (length p)) ts)
    | Some ds => sub_ana ds ts
    end = Ok (map D ts, map Dd ts);
  pt_g : match m_goal m with
         | None => forall t, G t = m_attr m /\ Gd t = repeat 0 (m_dim m)
         | Some g => forall t, regular g t -> sub_diffeq g (G t) = Ok (Gd t)
         end;
  pt_p : forall t, regular (m_phase m) t -> sub_diffeq (m_phase m) (P t) = Ok (Pd t);
  pt_a : forall t, regular (m_gating m) t -> sub_diffeq (m_gating m) (A t) = Ok (Ad t);
  pt_c : match m_damping m with
         | None => (forall t i, (i < m_dim m)%nat -> nth i (C t) 0 = par_val (d_damp (m_spring m)) i) /\
                   forall t, Cd t = repeat 0 (m_dim m)
         | Some g => forall t, D t = C t /\ Dd t = Cd t /\ (regular g t -> sub_diffeq g (C t) = Ok (Cd t))
         end;
  pt_0 : P 0 = sub_init (m_phase m) /\ A 0 = sub_init (m_gating m) /\
         match m_goal m with Some g => G 0 = sub_init g | None => True end /\
         match m_damping m with Some g => D 0 = sub_init g | None => True end }.

Lemma wf_parts pf m : wf pf m -> exists G Gd P Pd A Ad D Dd C Cd, parts m G Gd P Pd A Ad D Dd C Cd.
Proof.
  intros (Ht & Ha & _ & _ & _ & _ & _ & _ & Hd & _ & _ & _ & Hg & Hda & Hp & Hp1 & Hga & Hga1 & _).
  assert (XG : exists G Gd : R -> list R, (forall t, length (G t) = m_dim m) /\ (forall t, length (Gd t) = m_dim m) /\
    (forall ts, match m_goal m with
    | None => Ok (map (fun _ => m_attr m) ts, map (fun _ => repeat 0 (length (m_attr m))) ts)
    | Some g => sub_ana g ts
    end = Ok (map G ts, map Gd ts)) /\
    match m_goal m with
    | None => forall t, G t = m_attr m /\ Gd t = repeat 0 (m_dim m)
    | Some g => forall t, regular g t -> sub_diffeq g (G t) = Ok (Gd t)
    end /\ match m_goal m with Some g => G 0 = sub_init g | None => True end).
  { destruct (m_goal m) as [g|].
    - destruct Hg as [Hok Hdim]. destruct (sub_solution g Hok) as (X & Xd & E & E0 & L & Ld & Q).
      exists X, Xd. rewrite <- Hdim. repeat split; trivial.
    - exists (fun _ => m_attr m), (fun _ => repeat 0 (length (m_attr m))). rewrite Ha.
      repeat split; trivial; intros; now rewrite ?repeat_length. }
  assert (XD : exists D Dd C Cd : R -> list R, (forall t, fit (m_dim m) (D t) = Ok (C t)) /\ (forall t, fit (m_dim m) (Dd t) = Ok (Cd t)) /\
    (forall ts, match m_damping m with
    | None => let p := damp_row (d_damp (m_spring m)) in
              Ok (map (fun _ => p) ts, map (fun _ => repeat 0 (length p)) ts)
    | Some ds => sub_ana ds ts
    end = Ok (map D ts, map Dd ts)) /\
    match m_damping m with
    | None => (forall t i, (i < m_dim m)%nat -> nth i (C t) 0 = par_val (d_damp (m_spring m)) i) /\
              forall t, Cd t = repeat 0 (m_dim m)
    | Some g => forall t, D t = C t /\ Dd t = Cd t /\ (regular g t -> sub_diffeq g (C t) = Ok (Cd t))
    end /\ match m_damping m with Some g => D 0 = sub_init g | None => True end).
  { destruct (m_damping m) as [g|].
    - destruct Hda as [Hok Hdim]. destruct (sub_solution g Hok) as (X & Xd & E & E0 & L & Ld & Q).
      exists X, Xd, X, Xd. rewrite <- Hdim. split; [intros; now apply fit_same|]. split; [intros; now apply fit_same|].
      split; [trivial|]. split; [|trivial]. intros t. repeat split. apply Q.
    - set (p := damp_row (d_damp (m_spring m))).
      exists (fun _ => p), (fun _ => repeat 0 (length p)), (fun _ => map (par_val (d_damp (m_spring m))) (seq 0 (m_dim m))),
             (fun _ => repeat 0 (m_dim m)).
      assert (Hl : length p = m_dim m \/ length p = 1%nat).
      { unfold p. destruct (d_damp (m_spring m)); cbn in *; auto. }
      split; [|split; [|split; [|split; [split|]]]]; trivial.
      + intros _. unfold p. destruct (d_damp (m_spring m)) as [r|l]; cbn [damp_row par_val par_ok] in *.
        * unfold fit. cbn [length]. destruct (Nat.eqb_spec 1 (m_dim m)) as [E|E].
          -- rewrite <- E. reflexivity.
          -- now rewrite map_const_seq.
        * rewrite fit_same by trivial. f_equal. rewrite <- Hd. apply list_eq_map_nth.
      + intros _. unfold fit. rewrite repeat_length. destruct (Nat.eqb_spec (length p) (m_dim m)) as [E|E]; [now rewrite E|].
        destruct Hl as [Hl|Hl]; [contradiction|]. rewrite Hl. reflexivity.
      + intros _ i Hi. now rewrite nth_map_seq. }
  destruct XG as (G & Gd & g1 & g2 & g3 & g4 & g5). destruct XD as (D & Dd & C & Cd & d1 & d2 & d3 & d4 & d5).
  destruct (sub_solution _ Hp) as (P & Pd & p1 & p2 & p3 & p4 & p5).
  destruct (sub_solution _ Hga) as (A & Ad & a1 & a2 & a3 & a4 & a5).
  exists G, Gd, P, Pd, A, Ad, D, Dd, C, Cd. rewrite Hp1 in p3, p4. rewrite Hga1 in a3, a4.
  constructor; trivial. repeat split; trivial.
Qed.

Lemma at_map {A} (f : A -> list R) l k j d : (k < length l)%nat -> at_ (map f l) k j = nth j (f (nth k l d)) 0.
Proof. intros H. unfold at_. now rewrite (nth_map_lt _ _ _ d) by trivial. Qed.
Lemma nth_map_l {A B} (f : A -> B) l k d e : (k < length l)%nat -> nth k (map f l) e = f (nth k l d).
Proof. intros H. now rewrite (nth_map_lt _ _ _ d) by trivial. Qed.

Section Spec.
Variable pf : nat -> list (string * pval) -> R -> res R.
Variable m : dmp.
Variables G Gd P Pd A Ad D Dd C Cd : R -> list R.
Hypothesis W : wf pf m.
Hypothesis Q : parts m G Gd P Pd A Ad D Dd C Cd.
Variable suppress : bool.
Notation X := (d_init (m_spring m)).
Notation L t ts := (@cons (R * list R) (t%R, X) (states pf m G P A C suppress t%R X ts)).
Notation xr := (xrow G P A C).
Notation xdr := (xdrow pf m G Gd P Pd A Ad C suppress Cd).

Lemma ana_eq t ts : ana pf m (t :: ts) suppress =
  Ok (Ana (map xr (L t ts)) (map xdr (L t ts)) (map (fol pf m P A suppress) (t :: ts))
          (map (fun t => map (fav pf m P suppress t) (seq 0 (m_dim m))) (t :: ts))).
Proof. destruct Q. exact (ana_ok pf m W G Gd P Pd A Ad D Dd C suppress pt_G0 pt_Gd0 pt_P0 pt_Pd0 pt_A0 pt_Ad0 pt_D0 Cd pt_Dd0 pt_EP0 pt_EA0 pt_EG0 pt_ED0 t ts). Qed.

Lemma L_length t ts : length (L t ts) = S (length ts).
Proof. cbn [length]. rewrite <- (map_length fst), states_times. reflexivity. Qed.
Lemma L_time t ts k : (k < S (length ts))%nat -> fst (nth k (L t ts) (0, [])) = nth k (t :: ts) 0.
Proof.
  intros H. rewrite <- (nth_map_l fst _ _ _ 0) by (rewrite L_length; lia). cbn [map fst]. now rewrite states_times.
Qed.
Lemma L_len t ts k : (k < S (length ts))%nat -> length (snd (nth k (L t ts) (0, []))) = (2 * m_dim m)%nat.
Proof.
  intros H. destruct k as [|k]; [apply W|]. cbn [nth]. pose proof (states_len pf m G P A C suppress ts t X) as F.
  rewrite Forall_forall in F. apply F. apply nth_In. pose proof (L_length t ts) as E. cbn [length] in E. lia.
Qed.
Lemma C_len t : length (C t) = m_dim m. Proof. destruct Q. eapply fit_length; eauto. Qed.
Lemma Cd_len t : length (Cd t) = m_dim m. Proof. destruct Q. eapply fit_length; eauto. Qed.
Lemma xr_layout p : length (snd p) = (2 * m_dim m)%nat ->
  same_layout (m_dim m) (snd p) (G (fst p)) (P (fst p)) (A (fst p)) (C (fst p)).
Proof. intros H. destruct Q. repeat split; trivial. apply C_len. Qed.
Lemma xdr_layout p : same_layout (m_dim m) (rate pf m G P A C suppress (fst p) (snd p)) (Gd (fst p)) (Pd (fst p)) (Ad (fst p)) (Cd (fst p)).
Proof. destruct Q. repeat split; trivial. - apply rate_length. - apply Cd_len. Qed.

Lemma ana_spec t ts r : ana pf m (t :: ts) suppress = Ok r -> rollout_spec pf m (t :: ts) suppress r.
Proof.
  rewrite ana_eq. intros E. apply (f_equal (fun x => match x with Ok y => y | Err _ => r end)) in E. cbv beta iota in E. subst r.
  set (T := t :: ts). set (n := m_dim m). set (l := L t ts).
  assert (Hl : length l = length T) by apply L_length.
  assert (Ht : forall k, (k < length T)%nat -> fst (nth k l (0, [])) = nth k T 0) by apply L_time.
  assert (Hx : forall k, (k < length T)%nat -> length (snd (nth k l (0, []))) = (2 * n)%nat) by apply L_len.
  assert (NX : forall k, (k < length T)%nat -> let p := nth k l (0, []) in
     (forall i, (i < n)%nat -> yv (map xr l) k i = nth i (snd p) 0) /\
     (forall i, (i < n)%nat -> zv n (map xr l) k i = nth (n + i) (snd p) 0) /\
     (forall i, (i < n)%nat -> gv n (map xr l) k i = nth i (G (nth k T 0)) 0) /\
     pv n (map xr l) k = nth 0 (P (nth k T 0)) 0 /\ av n (map xr l) k = nth 0 (A (nth k T 0)) 0 /\
     (forall i, (i < n)%nat -> cv n (map xr l) k i = nth i (C (nth k T 0)) 0)).
  { intros k Hk. cbv zeta. rewrite <- (Ht k Hk).
    pose proof (nth_asm _ _ _ _ _ _ (xr_layout _ (Hx k Hk))) as (N1 & N2 & N3 & N4 & N5 & N6).
    unfold yv, zv, gv, pv, av, cv.
    repeat split; intros; rewrite (at_map _ _ _ _ (0, [])) by (rewrite Hl; trivial); auto. }
  assert (ND : forall k, (k < length T)%nat -> let p := nth k l (0, []) in let rt := rate pf m G P A C suppress (nth k T 0) (snd p) in
     (forall i, (i < n)%nat -> yv (map xdr l) k i = nth i rt 0) /\
     (forall i, (i < n)%nat -> zv n (map xdr l) k i = nth (n + i) rt 0) /\
     (forall i, (i < n)%nat -> gv n (map xdr l) k i = nth i (Gd (nth k T 0)) 0) /\
     pv n (map xdr l) k = nth 0 (Pd (nth k T 0)) 0 /\ av n (map xdr l) k = nth 0 (Ad (nth k T 0)) 0 /\
     (forall i, (i < n)%nat -> cv n (map xdr l) k i = nth i (Cd (nth k T 0)) 0)).
  { intros k Hk. cbv zeta. rewrite <- (Ht k Hk).
    pose proof (nth_asm _ _ _ _ _ _ (xdr_layout (nth k l (0, [])))) as (N1 & N2 & N3 & N4 & N5 & N6).
    unfold yv, zv, gv, pv, av, cv.
    repeat split; intros; rewrite (at_map _ _ _ _ (0, [])) by (rewrite Hl; trivial); auto. }
  assert (FO : forall k i, (k < length T)%nat -> (i < n)%nat ->
     at_ (map (fol pf m P A suppress) T) k i = fo pf m P A suppress (nth k T 0) i).
  { intros k i Hk Hi. rewrite (at_map _ _ _ _ 0) by trivial. unfold fol. now rewrite nth_map_seq. }
  assert (RT : forall k i, (k < length T)%nat -> (i < n)%nat -> 
     let p := nth k l (0, []) in let rt := rate pf m G P A C suppress (nth k T 0) (snd p) in
     nth i rt 0 = nth (n + i) (snd p) 0 / m_tau m /\
     nth (n + i) rt 0 = accel m i (nth i (snd p) 0) (nth (n + i) (snd p) 0) (target m (nth i (G (nth k T 0)) 0) i)
       (nth i (C (nth k T 0)) 0) (fo pf m P A suppress (nth k T 0) i)).
  { intros k i Hk Hi. cbv zeta. unfold rate.
    destruct (nth_accs m (snd (nth k l (0, []))) (tgt m G (nth k T 0)) (C (nth k T 0)) (fol pf m P A suppress (nth k T 0)) i Hi) as [E1 E2].
    split; [exact E1|]. etransitivity; [exact E2|]. unfold tgt, fol. fold n. now rewrite !nth_map_seq. }
  unfold rollout_spec. cbv zeta. cbn [a_xs a_xds a_forcing a_fa]. fold n T l.
  split; [rewrite map_length; exact Hl|]. split; [rewrite map_length; exact Hl|].
  split; [now rewrite map_length|]. split; [now rewrite map_length|].
  split.
  { intros k Hk. rewrite !(nth_map_l _ l _ (0, [])) by (rewrite Hl; trivial). rewrite !(nth_map_l _ T _ 0) by trivial.
    split; [apply (asm_length m (goal_dim pf m W)), xr_layout; auto|]. split; [apply (asm_length m (goal_dim pf m W)), xdr_layout; auto|].
    split; [apply fol_length|now rewrite map_length, seq_length]. }
  split.
  { exists (map P T), (map Pd T). split; [apply Q|]. intros k Hk. rewrite !(at_map _ _ _ _ 0) by trivial.
    split; [apply (NX k Hk)|apply (ND k Hk)]. }
  split.
  { exists (map A T), (map Ad T). split; [apply Q|]. intros k Hk. rewrite !(at_map _ _ _ _ 0) by trivial.
    split; [apply (NX k Hk)|apply (ND k Hk)]. }
  split.
  { pose proof (pt_EG _ _ _ _ _ _ _ _ _ _ _ Q T) as E. pose proof (pt_g _ _ _ _ _ _ _ _ _ _ _ Q) as E'. destruct (m_goal m) as [g|].
    - exists (map G T), (map Gd T). split; [exact E|]. intros k i Hk Hi. rewrite !(at_map _ _ _ _ 0) by trivial.
      split; [now apply (NX k Hk)|now apply (ND k Hk)].
    - intros k i Hk Hi. destruct (E' (nth k T 0)) as [E1 E2]. split.
      + destruct (NX k Hk) as (_ & _ & N & _). rewrite N by trivial. now rewrite E1.
      + destruct (ND k Hk) as (_ & _ & N & _). rewrite N by trivial. rewrite E2. now rewrite nth_repeat_lt. }
  split.
  { pose proof (pt_ED _ _ _ _ _ _ _ _ _ _ _ Q T) as E. pose proof (pt_c _ _ _ _ _ _ _ _ _ _ _ Q) as E'. destruct (m_damping m) as [g|].
    - exists (map D T), (map Dd T). split; [exact E|]. intros k i Hk Hi. rewrite !(at_map _ _ _ _ 0) by trivial.
      destruct (E' (nth k T 0)) as (E1 & E2 & _). rewrite E1, E2.
      split; [now apply (NX k Hk)|now apply (ND k Hk)].
    - intros k i Hk Hi. destruct E' as [E1 E2]. split.
      + destruct (NX k Hk) as (_ & _ & _ & _ & _ & N). rewrite N by trivial. now apply E1.
      + destruct (ND k Hk) as (_ & _ & _ & _ & _ & N). rewrite N by trivial. rewrite E2. now rewrite nth_repeat_lt. }
  split.
  { intros k i Hk Hi. destruct (NX k Hk) as (_ & _ & _ & N4 & N5 & _). rewrite N4, N5.
    rewrite FO by trivial. rewrite (at_map _ _ _ _ 0) by trivial. rewrite nth_map_seq by trivial.
    split; reflexivity. }
  split.
  { intros i Hi. destruct (NX 0%nat ltac:(cbn; lia)) as (N1 & N2 & _). rewrite N1, N2 by trivial. split; reflexivity. }
  split.
  { intros k i Hk Hi. destruct (NX k Hk) as (N1 & N2 & N3 & N4 & N5 & N6). destruct (ND k Hk) as (M1 & M2 & _).
    rewrite N1, N2, N3, N6, M1, M2, FO by trivial. apply RT; trivial. }
  intros k i Hk Hi.
  destruct (NX k ltac:(lia)) as (N1 & N2 & _). destruct (NX (S k) Hk) as (S1 & S2 & _).
  destruct (ND k ltac:(lia)) as (M1 & M2 & _). rewrite N1, N2, S1, S2, M1, M2 by trivial.
  assert (E : snd (nth (S k) l (0, [])) = next pf m G P A C suppress (nth k T 0) (nth (S k) T 0) (snd (nth k l (0, [])))).
  { apply states_step. cbn in Hk. lia. }
  rewrite E. unfold next. fold n. rewrite !nth_map_seq by lia. split; reflexivity.
Qed.

(** *** the differential equation *)
Lemma synced_attr : synced m -> match m_goal m with Some g => sub_set_attr g (m_attr m) = Ok g | None => True end.
Proof.
  unfold synced. intros H. destruct W as (_ & Ha & _ & _ & _ & _ & _ & _ & _ & _ & _ & _ & Hg & _).
  destruct (m_goal m) as [g|]; [|exact I]. destruct g as [e|g|h|h]; cbn; trivial.
  destruct Hg as [_ Hg]. unfold sub_dim in Hg. cbn in Hg. rewrite Ha, Hg, Nat.eqb_refl, <- H. now destruct e.
Qed.
Lemma spring_attr g : length g = m_dim m -> d_set_attr (m_spring m) g =
  Ok (Dsys (d_tau (m_spring m)) X g (d_damp (m_spring m)) (d_spring (m_spring m)) (d_mass (m_spring m)) (d_dimy (m_spring m))).
Proof.
  intros H. unfold d_set_attr. destruct W as (_ & _ & _ & _ & _ & Hdim & _). now rewrite Hdim, H, Nat.eqb_refl.
Qed.
Lemma zeros_layout : same_layout (m_dim m) (repeat 0 (2 * m_dim m)) (repeat 0 (m_dim m)) [0] [0] (repeat 0 (m_dim m)).
Proof. unfold same_layout. rewrite !repeat_length. repeat split. Qed.
Lemma scale_tgt t : scale_goal m (G t) = Ok (tgt m G t).
Proof. apply (scale_goal_ok pf m W). apply Q. Qed.
Lemma tgt_attr t : m_goal m = None -> m_req m = false -> tgt m G t = m_attr m.
Proof.
  intros H Hr. destruct Q. rewrite H in pt_g0. destruct (pt_g0 t) as [E _]. unfold tgt, target. rewrite Hr, E.
  destruct W as (_ & Ha & _). rewrite <- Ha. symmetry. apply list_eq_map_nth.
Qed.

Lemma diffeq_row p : suppress = false -> synced m -> plain_goal m -> length (snd p) = (2 * m_dim m)%nat -> dmp_regular m (fst p) ->
  exists m', m_diffeq pf m (xr p) = Ok (m', xdr p).
Proof.
  intros Hs Hy Hpl Hx (R1 & R2 & R3 & R4). destruct p as [t x]. cbn [fst snd] in *.
  pose proof (xr_layout (t, x) Hx) as LX. cbn [fst snd] in LX.
  pose proof (goal_dim pf m W) as GD.
  unfold m_diffeq. cbv zeta. change (xr (t, x)) with (asm x (G t) (P t) (A t) (C t)).
  assert (E1 : exists goal1, match m_goal m with
    | Some g => let* g1 := sub_set_attr g (m_attr m) in let* xg := get_ix (ix_goal m) (asm x (G t) (P t) (A t) (C t)) in
                let* xdg := sub_diffeq g1 xg in let* target := scale_goal m xg in
                let* sp := d_set_attr (m_spring m) target in Ok (sp, Some g1, xdg)
    | None => let* sp := d_set_attr (m_spring m) (m_attr m) in Ok (sp, None, repeat 0 (m_dim m)) end =
    (let* sp := d_set_attr (m_spring m) (tgt m G t) in Ok (sp, goal1, Gd t))).
  { pose proof (synced_attr Hy) as Hy'. pose proof (pt_g _ _ _ _ _ _ _ _ _ _ _ Q) as Qg.
    destruct (m_goal m) as [g|] eqn:Eg.
    - exists (Some g). rewrite Hy'. cbn [bind]. rewrite (get_goal m GD) by exact LX. cbn [bind].
      rewrite Qg by exact R3. cbn [bind]. rewrite scale_tgt. reflexivity.
    - exists None. rewrite tgt_attr by auto. destruct (Qg t) as [_ E]. now rewrite E. }
  destruct E1 as [goal1 E1]. rewrite E1. clear E1.
  rewrite spring_attr by apply tgt_length. cbn [bind].
  rewrite (asm_length m GD _ _ _ _ _ LX), (asm_zero m GD).
  pose proof zeros_layout as (Z1 & Z2 & Z3 & Z4 & Z5).
  rewrite (put_goal m GD (Gd t) (Gd t)) by (repeat split; trivial; apply fit_same, Q). cbn [bind].
  set (sp := Dsys (d_tau (m_spring m)) X (tgt m G t) (d_damp (m_spring m)) (d_spring (m_spring m)) (d_mass (m_spring m)) (d_dimy (m_spring m))).
  assert (E2 : exists pr, match m_damping m with
     | Some ds => let* xda := get_ix (ix_damping m) (asm x (G t) (P t) (A t) (C t)) in let* xdd := sub_diffeq ds xda in
                  Ok (d_set_damp sp (PVec xda), xdd)
     | None => Ok (sp, repeat 0 (m_dim m)) end = Ok (d_set_damp sp pr, Cd t) /\ par_ok pr (m_dim m) /\ forall i, (i < m_dim m)%nat -> par_val pr i = nth i (C t) 0).
  { pose proof (pt_c _ _ _ _ _ _ _ _ _ _ _ Q) as Qc. destruct (m_damping m) as [g|].
    - exists (PVec (C t)). rewrite (get_damping m GD) by exact LX. cbn [bind].
      destruct (Qc t) as (_ & _ & Qd). rewrite Qd by exact R4. split; [reflexivity|]. split; [|reflexivity].
      apply C_len.
    - exists (d_damp (m_spring m)). destruct Qc as [Q1 Q2]. rewrite Q2. split; [reflexivity|]. split; [apply W|].
      intros i Hi. now rewrite Q1. }
  destruct E2 as (pr & E2 & Hpr & Hpv). rewrite E2. clear E2. cbn [bind].
  rewrite (put_damping m GD (Cd t) (Cd t)).
  2:{ repeat split; trivial. apply Q. }
  2:{ apply fit_same, Cd_len. }
  cbn [bind]. rewrite (get_spring m) by exact LX. cbn [bind].
  destruct (spring_diffeq pf m W sp x (tgt m G t) pr (C t)) as (xd & Ed & Ef); trivial.
  { apply spring_attr, tgt_length. }
  { apply tgt_length. }
  rewrite Ed. cbn [bind].
  rewrite (get_phase m GD) by exact LX. cbn [bind]. rewrite (pt_p _ _ _ _ _ _ _ _ _ _ _ Q) by exact R1. cbn [bind].
  rewrite (put_phase m GD (Pd t) (Pd t)).
  2:{ repeat split; trivial; [apply Q|apply Cd_len]. }
  2:{ apply fit_same, Q. }
  cbn [bind]. rewrite (get_gating m GD) by exact LX. cbn [bind]. rewrite (pt_a _ _ _ _ _ _ _ _ _ _ _ Q) by exact R2. cbn [bind].
  rewrite (put_gating m GD (Ad t) (Ad t)).
  2:{ repeat split; trivial; [apply Q|apply Q|apply Cd_len]. }
  2:{ apply fit_same, Q. }
  cbn [bind]. rewrite (one_ok (P t)) by apply Q. cbn [bind]. rewrite (one_ok (A t)) by apply Q. cbn [bind].
  rewrite (predictions_ok pf m W). cbn [bind]. rewrite (factors_ok pf m W). cbn [bind].
  assert (EF : forcing (map (factor m) (seq 0 (m_dim m))) (map (pred_val pf m (nth 0 (P t) 0)) (seq 0 (m_dim m))) (nth 0 (A t) 0)
              = fol pf m P A suppress t).
  { unfold forcing. rewrite map2_map. unfold fol, fo, fav. rewrite Hs. reflexivity. }
  rewrite EF, Ef by apply fol_length. cbn [bind].
  change (accs m x (tgt m G t) (C t) (fol pf m P A suppress t)) with (rate pf m G P A C suppress t x).
  rewrite (put_spring m (rate pf m G P A C suppress t x) (rate pf m G P A C suppress t x)).
  2:{ repeat split; trivial; try apply Q. apply Cd_len. }
  2:{ apply fit_same, rate_length. }
  cbn [bind]. eexists. reflexivity.
Qed.
End Spec.
