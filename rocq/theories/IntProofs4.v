(** Numerical integration of a DMP: its vector field, component by component. *)
From Coq Require Import String.
From Verif Require Import Base BaseLemmas DynModel DynSpec DynProofs DynProofs5 ParamModel DmpModel DmpSpec DmpSpec2 DmpProofs DmpProofs3 DmpProofs14 DmpProofs19 SchedModel IntSpec IntProofs IntProofs2.
Open Scope R_scope.

(** ** functions of a state that are Lipschitz on bounded sets *)
Section VLip.
Variable N : nat.
Hypothesis HN : (0 < N)%nat.
Definition vlip (g : list R -> R) : Prop :=
  forall B, exists L, 0 <= L /\ forall x y e, inbox N B x -> inbox N B y -> close N e x y -> Rabs (g x - g y) <= L * e.
Lemma close_pos e x y : close N e x y -> 0 <= e.
Proof. intros H. specialize (H 0%nat HN). pose proof (Rabs_pos (nth 0 x 0 - nth 0 y 0)). lra. Qed.
Lemma vlip_const c : vlip (fun _ => c).
Proof. intros B. exists 0. split; [lra|]. intros. replace (c - c) with 0 by ring. rewrite Rabs_R0. lra. Qed.
Lemma vlip_comp f j : (j < N)%nat -> lipschitz f -> vlip (fun x => f (nth j x 0)).
Proof.
  intros Hj Hf B. destruct (lip_pos f Hf B) as (L & PL & HL). exists L. split; [trivial|]. intros x y e [_ Hx] [_ Hy] Hc.
  refine (Rle_trans _ _ _ (HL _ _ (Hx j Hj) (Hy j Hj)) _). apply Rmult_le_compat_l; [trivial|now apply Hc].
Qed.
Lemma vlip_proj j : (j < N)%nat -> vlip (fun x => nth j x 0).
Proof. intros Hj. apply (vlip_comp (fun v => v)); [trivial|apply lip_id]. Qed.
Lemma vlip_bound g : vlip g -> forall B, exists M, 0 <= M /\ forall x, inbox N B x -> Rabs (g x) <= M.
Proof.
  intros H B. destruct (H (Rabs B)) as (L & PL & HL). set (o := repeat 0 N).
  assert (Ho : forall j, nth j o 0 = 0) by (intros j; unfold o; apply nth_repeat).
  exists (Rabs (g o) + L * Rabs B). split; [pose proof (Rabs_pos (g o)); pose proof (Rmult_le_pos _ _ PL (Rabs_pos B)); lra|].
  intros x [Lx Hx]. pose proof (Rabs_sub_le (g x) (g o)). pose proof (Rle_abs B).
  assert (Rabs (g x - g o) <= L * Rabs B).
  { apply HL.
    - split; [trivial|]. intros i Hi. specialize (Hx i Hi). lra.
    - split; [apply repeat_length|]. intros i Hi. rewrite Ho, Rabs_R0. apply Rabs_pos.
    - intros i Hi. rewrite Ho, Rminus_0_r. specialize (Hx i Hi). lra. }
  lra.
Qed.
Lemma vlip_plus f g : vlip f -> vlip g -> vlip (fun x => f x + g x).
Proof.
  intros Hf Hg B. destruct (Hf B) as (L1 & P1 & H1). destruct (Hg B) as (L2 & P2 & H2). exists (L1 + L2). split; [lra|]. intros x y e Hx Hy Hc.
  replace (f x + g x - (f y + g y)) with ((f x - f y) + (g x - g y)) by ring. refine (Rle_trans _ _ _ (Rabs_triang _ _) _).
  specialize (H1 x y e Hx Hy Hc). specialize (H2 x y e Hx Hy Hc). lra.
Qed.
Lemma vlip_mult f g : vlip f -> vlip g -> vlip (fun x => f x * g x).
Proof.
  intros Hf Hg B. destruct (Hf B) as (L1 & P1 & H1). destruct (Hg B) as (L2 & P2 & H2).
  destruct (vlip_bound f Hf B) as (M1 & Q1 & B1). destruct (vlip_bound g Hg B) as (M2 & Q2 & B2).
  exists (M1 * L2 + L1 * M2). split; [pose proof (Rmult_le_pos _ _ Q1 P2); pose proof (Rmult_le_pos _ _ P1 Q2); lra|]. intros x y e Hx Hy Hc.
  replace (f x * g x - f y * g y) with (f x * (g x - g y) + (f x - f y) * g y) by ring. refine (Rle_trans _ _ _ (Rabs_triang _ _) _).
  specialize (H1 x y e Hx Hy Hc). specialize (H2 x y e Hx Hy Hc).
  pose proof (Rabs_mult_le _ _ _ _ (B1 x Hx) H2) as E1. pose proof (Rabs_mult_le _ _ _ _ H1 (B2 y Hy)) as E2. lra.
Qed.
Lemma vlip_ext f g : (forall x, f x = g x) -> vlip f -> vlip g.
Proof. intros E H B. destruct (H B) as (L & P & HL). exists L. split; [trivial|]. intros. rewrite <- !E. now apply HL. Qed.
(** one constant for finitely many functions *)
Lemma vlip_all (g : nat -> list R -> R) (use : nat -> bool) B : (forall j, (j < N)%nat -> use j = true -> vlip (g j)) ->
  exists L, 0 <= L /\ forall x y e j, inbox N B x -> inbox N B y -> close N e x y -> (j < N)%nat -> use j = true -> Rabs (g j x - g j y) <= L * e.
Proof.
  intros H. assert (K : forall k, (k <= N)%nat -> exists L, 0 <= L /\ forall x y e j, inbox N B x -> inbox N B y -> close N e x y -> (j < k)%nat -> use j = true -> Rabs (g j x - g j y) <= L * e).
  { induction k as [|k IH]; intros Hk; [exists 0; split; [lra|]; intros; lia|]. destruct (IH ltac:(lia)) as (L & PL & HL).
    destruct (use k) eqn:E.
    - destruct (H k ltac:(lia) E B) as (L' & PL' & HL'). exists (L + L'). split; [lra|]. intros x y e j Hx Hy Hc Hj Hu. pose proof (close_pos _ _ _ Hc) as He.
      pose proof (Rmult_le_pos _ _ PL He). pose proof (Rmult_le_pos _ _ PL' He). destruct (Nat.eq_dec j k) as [->|].
      + specialize (HL' x y e Hx Hy Hc). lra.
      + specialize (HL x y e j Hx Hy Hc ltac:(lia) Hu). lra.
    - exists L. split; [trivial|]. intros x y e j Hx Hy Hc Hj Hu. apply HL; trivial. assert (j <> k) by congruence. lia. }
  exact (K N (Nat.le_refl _)).
Qed.
Lemma bound_all (g : nat -> list R -> R) B : (forall j, (j < N)%nat -> exists M, 0 <= M /\ forall x, inbox N B x -> Rabs (g j x) <= M) ->
  exists M, 0 <= M /\ forall x j, inbox N B x -> (j < N)%nat -> Rabs (g j x) <= M.
Proof.
  intros H. assert (K : forall k, (k <= N)%nat -> exists M, 0 <= M /\ forall x j, inbox N B x -> (j < k)%nat -> Rabs (g j x) <= M).
  { induction k as [|k IH]; intros Hk; [exists 0; split; [lra|]; intros; lia|]. destruct (IH ltac:(lia)) as (M & PM & HM).
    destruct (H k ltac:(lia)) as (M' & PM' & HM'). exists (M + M'). split; [lra|]. intros x j Hx Hj. destruct (Nat.eq_dec j k) as [->|].
    - specialize (HM' x Hx). lra.
    - specialize (HM x j Hx ltac:(lia)). lra. }
  exact (K N (Nat.le_refl _)).
Qed.
End VLip.
(** one constant for finitely many bounds *)
Lemma max_all (P : nat -> R -> Prop) : (forall j a b, a <= b -> P j a -> P j b) -> forall N, (forall j, (j < N)%nat -> exists c, 0 <= c /\ P j c) ->
  exists c, 0 <= c /\ forall j, (j < N)%nat -> P j c.
Proof.
  intros Mono. induction N as [|N IH]; intros H; [exists 0; split; [lra|]; intros; lia|].
  destruct IH as (c & Pc & Hc); [intros; apply H; lia|]. destruct (H N ltac:(lia)) as (c' & Pc' & Hc'). exists (c + c'). split; [lra|].
  intros j Hj. destruct (Nat.eq_dec j N) as [->|]; [apply (Mono _ c'); [lra|trivial]|apply (Mono _ c); [lra|apply Hc; lia]].
Qed.

(** ** the vector field of a DMP *)
Section Field.
Variable pf : nat -> list (string * pval) -> R -> res R.
Variable m : dmp.
Hypothesis W : wf pf m.
Hypothesis Sy : synced m.
Hypothesis I1 : integrable (m_phase m).
Hypothesis I2 : integrable (m_gating m).
Hypothesis I3 : match m_goal m with Some g => integrable g | None => True end.
Hypothesis I4 : match m_damping m with Some g => integrable g | None => True end.
Notation n := (m_dim m).
Notation N := (dim_x m).

(** the subsystem a component from 2 n on belongs to, and its index there *)
Definition own (j : nat) : option sub * nat :=
  if Nat.ltb j (3 * n) then (m_goal m, (j - 2 * n)%nat)
  else if Nat.eqb j (3 * n) then (Some (m_phase m), 0%nat)
  else if Nat.eqb j (3 * n + 1) then (Some (m_gating m), 0%nat)
  else (m_damping m, (j - (3 * n + 2))%nat).
Definition orate (o : option sub) (i : nat) (v : R) : R := match o with None => 0 | Some s => rates s i v end.
Definition fieldc (j : nat) (x : list R) : R :=
  if Nat.ltb j n then nth (n + j) x 0 / m_tau m
  else if Nat.ltb j (2 * n) then
    let i := (j - n)%nat in accel m i (nth i x 0) (nth (n + i) x 0) (goal_now m x i) (damping_now m x i) (forcing_now pf m x i)
  else orate (fst (own j)) (snd (own j)) (nth j x 0).
Definition field (x : list R) : list R := map (fun j => fieldc j x) (seq 0 N).
Lemma field_length x : length (field x) = N. Proof. unfold field. now rewrite map_length, seq_length. Qed.
Lemma nth_field x j : (j < N)%nat -> nth j (field x) 0 = fieldc j x. Proof. intros. unfold field. now rewrite nth_map_seq. Qed.

Lemma own_ok j : (2 * n <= j < N)%nat ->
  match own j with (None, _) => True | (Some s, i) => sub_ok s /\ integrable s /\ (i < sub_dim s)%nat end.
Proof.
  intros Hj. unfold dim_x in Hj. pose proof W as (_ & _ & _ & _ & _ & _ & _ & _ & _ & _ & _ & _ & Hg & Hc & Hp & Hp1 & Ha & Ha1 & _). unfold own.
  destruct (Nat.ltb_spec j (3 * n)) as [Q0|Q0]; [destruct (m_goal m); [|trivial]; destruct Hg as [Hg1 Hg2]; rewrite Hg2; repeat split; trivial; try apply Hg1; lia|].
  destruct (Nat.eqb_spec j (3 * n)) as [Q1|Q1]; [rewrite Hp1; split; [exact Hp|split; [exact I1|lia]]|].
  destruct (Nat.eqb_spec j (3 * n + 1)) as [Q2|Q2]; [rewrite Ha1; split; [exact Ha|split; [exact I2|lia]]|].
  destruct (m_damping m); [|trivial]. destruct Hc as [Hc1 Hc2]. rewrite Hc2. split; [exact Hc1|]. split; [exact I4|lia].
Qed.
Lemma rate_field x : length x = N -> rate_of pf m x = Ok (field x).
Proof.
  intros Hx. assert (E : equation pf m x (field x)).
  { pose proof W as (Ht & Hat & _ & _ & _ & _ & _ & _ & _ & _ & _ & HM & Hg & Hc & Hp & Hp1 & Ha & Ha1 & _).
    assert (HN : N = (4 * n + 2)%nat) by (unfold dim_x; lia).
    split; [apply field_length|].
    set (gd := match m_goal m with None => repeat 0 n | Some g => map (fun i => rates g i (nth (2 * n + i) x 0)) (seq 0 n) end).
    set (cd := match m_damping m with None => repeat 0 n | Some g => map (fun i => rates g i (nth (3 * n + 2 + i) x 0)) (seq 0 n) end).
    exists gd, (rates (m_phase m) 0 (nth (3 * n) x 0)), (rates (m_gating m) 0 (nth (3 * n + 1) x 0)), cd.
    assert (Pt : forall o, length (part o n x) = n) by (intros; unfold part; now rewrite map_length, seq_length).
    assert (Np : forall o i, (i < n)%nat -> nth i (part o n x) 0 = nth (o + i) x 0) by (intros; unfold part; now rewrite nth_map_seq).
    assert (Sb : forall s o, sub_ok s -> integrable s -> sub_dim s = n -> sub_diffeq s (part o n x) = Ok (map (fun i => rates s i (nth (o + i) x 0)) (seq 0 n))).
    { intros s o H1 H2 H3. rewrite sub_rates by (trivial; rewrite Pt; now symmetry). rewrite H3. f_equal. apply map_ext_in. intros i Hi. apply in_seq in Hi. rewrite Np by lia. reflexivity. }
    split; [|split; [|split]].
    - split; [|split; [|split]].
      + unfold gd. pose proof (synced_attr pf m W Sy) as SA. destruct (m_goal m) as [g|]; [|reflexivity]. exists g. split; [exact SA|]. destruct Hg as [Hg1 Hg2]. now apply Sb.
      + rewrite sub_rates by (trivial; rewrite Hp1; reflexivity). rewrite Hp1. reflexivity.
      + rewrite sub_rates by (trivial; rewrite Ha1; reflexivity). rewrite Ha1. reflexivity.
      + unfold cd. destruct (m_damping m) as [g|]; [|reflexivity]. destruct Hc as [Hc1 Hc2]. now apply Sb.
    - rewrite nth_field by lia. unfold fieldc, own. rewrite (proj2 (Nat.ltb_ge (3 * n) n)), (proj2 (Nat.ltb_ge (3 * n) (2 * n))), (proj2 (Nat.ltb_ge (3 * n) (3 * n))) by lia.
      rewrite Nat.eqb_refl. reflexivity.
    - rewrite nth_field by lia. unfold fieldc, own. rewrite (proj2 (Nat.ltb_ge (3 * n + 1) n)), (proj2 (Nat.ltb_ge (3 * n + 1) (2 * n))), (proj2 (Nat.ltb_ge (3 * n + 1) (3 * n))) by lia.
      rewrite (proj2 (Nat.eqb_neq (3 * n + 1) (3 * n))) by lia. rewrite Nat.eqb_refl. reflexivity.
    - intros i Hi. specialize (HM i Hi). split; [|split; [|split]].
      + rewrite nth_field by lia. unfold fieldc. rewrite (proj2 (Nat.ltb_lt i n)) by trivial. field. trivial.
      + rewrite nth_field by lia. unfold fieldc. rewrite (proj2 (Nat.ltb_ge (n + i) n)), (proj2 (Nat.ltb_lt (n + i) (2 * n))) by lia. cbv zeta.
        replace (n + i - n)%nat with i by lia. unfold accel. field. now split.
      + rewrite nth_field by lia. unfold fieldc, own. rewrite (proj2 (Nat.ltb_ge (2 * n + i) n)), (proj2 (Nat.ltb_ge (2 * n + i) (2 * n))), (proj2 (Nat.ltb_lt (2 * n + i) (3 * n))) by lia.
        cbn [fst snd]. replace (2 * n + i - 2 * n)%nat with i by lia. unfold gd, orate. destruct (m_goal m); [now rewrite nth_map_seq|now rewrite nth_repeat].
      + rewrite nth_field by lia. unfold fieldc, own. rewrite (proj2 (Nat.ltb_ge (3 * n + 2 + i) n)), (proj2 (Nat.ltb_ge (3 * n + 2 + i) (2 * n))), (proj2 (Nat.ltb_ge (3 * n + 2 + i) (3 * n))) by lia.
        rewrite (proj2 (Nat.eqb_neq (3 * n + 2 + i) (3 * n))), (proj2 (Nat.eqb_neq (3 * n + 2 + i) (3 * n + 1))) by lia. cbn [fst snd].
        replace (3 * n + 2 + i - (3 * n + 2))%nat with i by lia. unfold cd, orate. destruct (m_damping m); [now rewrite nth_map_seq|now rewrite nth_repeat]. }
  apply (equation_iff pf m W x _ Hx) in E. destruct E as [m' E]. unfold rate_of. rewrite E. reflexivity.
Qed.
Lemma field_computes : computes (rate_of pf m) N field.
Proof. intros x Hx. split; [now apply rate_field|apply field_length]. Qed.

(** components with a rate that jumps *)
Definition irr (j : nat) : bool :=
  if Nat.ltb j (2 * n) then false else match fst (own j) with Some s => timed s | None => false end.

Hypothesis Pl : forall i, (i < n)%nat -> lipschitz (fun ph => pred_val pf m ph i).
Lemma fieldc_lip j : (j < N)%nat -> irr j = false -> vlip N (fieldc j).
Proof.
  intros Hj Hr. assert (HN : N = (4 * n + 2)%nat) by (unfold dim_x; lia). pose proof W as (Ht & _ & _ & _ & _ & _ & _ & _ & _ & _ & _ & HM & _).
  unfold fieldc. destruct (Nat.ltb_spec j n) as [C|C].
  - apply (vlip_comp N (fun v => v / m_tau m)); [lia|]. apply lip_mult; [apply lip_id|apply lip_const].
  - destruct (Nat.ltb_spec j (2 * n)) as [C2|C2].
    + set (i := (j - n)%nat). assert (Hi : (i < n)%nat) by (unfold i; lia). cbv zeta. unfold accel, Rdiv. assert (P0 : (0 < N)%nat) by lia.
      assert (G : vlip N (fun x => goal_now m x i)).
      { unfold goal_now. destruct (m_goal m); [|now apply vlip_const]. apply (vlip_comp N (fun v => target m v i)); [lia|].
        unfold target. cbv zeta. destruct (m_req m); [|apply lip_id]. apply lip_plus; [apply lip_const|]. apply lip_mult; [apply lip_const|apply lip_id]. }
      assert (D : vlip N (fun x => damping_now m x i)).
      { unfold damping_now. destruct (m_damping m); [apply vlip_proj; lia|now apply vlip_const]. }
      assert (Fo : vlip N (fun x => forcing_now pf m x i)).
      { unfold forcing_now. apply vlip_mult; [|now apply vlip_const]. apply vlip_mult; [|apply vlip_proj; lia].
        apply (vlip_comp N (fun v => pred_val pf m v i)); [lia|]. now apply Pl. }
      apply vlip_plus; [|apply vlip_mult; [exact Fo|now apply vlip_const]]. apply vlip_mult; [|now apply vlip_const]. unfold Rminus.
      apply vlip_plus.
      * apply vlip_mult; [now apply vlip_const|]. apply vlip_plus; [apply vlip_proj; lia|].
        apply (vlip_ext N (fun x => -1 * goal_now m x i)); [intros; ring|]. apply vlip_mult; [now apply vlip_const|exact G].
      * apply (vlip_ext N (fun x => -1 * (damping_now m x i * nth (n + i) x 0))); [intros; ring|]. apply vlip_mult; [now apply vlip_const|].
        apply vlip_mult; [exact D|apply vlip_proj; lia].
    + unfold irr in Hr. rewrite (proj2 (Nat.ltb_ge j (2 * n))) in Hr by lia. unfold orate. destruct (fst (own j)) as [s|]; [|apply vlip_const; lia].
      apply (vlip_comp N (rates s (snd (own j)))); [trivial|]. now apply rates_lip.
Qed.
Lemma fieldc_bound B j : (j < N)%nat -> exists M, 0 <= M /\ forall x, inbox N B x -> Rabs (fieldc j x) <= M.
Proof.
  intros Hj. destruct (irr j) eqn:Hr; [|apply vlip_bound; now apply fieldc_lip].
  unfold irr in Hr. destruct (Nat.ltb_spec j (2 * n)) as [C|C]; [discriminate|]. destruct (fst (own j)) as [s|] eqn:E; [|discriminate].
  destruct s as [| | |h]; try discriminate. exists (Rabs (/ t_tau h)). split; [apply Rabs_pos|]. intros x _. unfold fieldc.
  rewrite (proj2 (Nat.ltb_ge j n)), (proj2 (Nat.ltb_ge j (2 * n))) by lia. rewrite E. cbn [orate rates]. pose proof (Rabs_pos (/ t_tau h)).
  assert (Rabs (-1 / t_tau h) = Rabs (/ t_tau h)) by (replace (-1 / t_tau h) with (- / t_tau h) by (unfold Rdiv; ring); apply Rabs_Ropp).
  assert (Rabs (1 / t_tau h) = Rabs (/ t_tau h)) by (f_equal; unfold Rdiv; ring).
  destruct (t_down h); [destruct (Rlt_dec 0 _)|destruct (Rlt_dec _ 1)]; rewrite ?Rabs_R0; lra.
Qed.
End Field.
