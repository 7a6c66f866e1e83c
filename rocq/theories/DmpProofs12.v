(** Proofs about DMPs: convergence to the goal. *)
From Coq Require Import String.
From Verif Require Import Base BaseLemmas DynModel DynSpec DynProofs DynProofs2 DynProofs7 ParamModel TrajModel DmpModel DmpSpec DmpProofs DmpProofs2 DmpProofs3 DmpProofs4 DmpProofs5 DmpProofs7 DmpProofs9 DmpProofs10.
Open Scope R_scope.

(** ** families of finite sequences *)
Section Fam.
Variable A : Type.
Variable len : A -> nat.
Definition vanishes (f : A -> nat -> R) : Prop :=
  forall eps, 0 < eps -> exists N, forall a k, (N <= k)%nat -> (k < len a)%nat -> f a k < eps.

Lemma nat_above x : exists n, x <= INR n.
Proof.
  exists (Z.to_nat (up x)). destruct (archimed x) as [H _]. destruct (Z.le_gt_cases 0 (up x)) as [Hz|Hz].
  - rewrite INR_IZR_INZ, Z2Nat.id by trivial. lra.
  - pose proof (pos_INR (Z.to_nat (up x))). apply IZR_lt in Hz. lra.
Qed.
Lemma pow_small L B eps : 0 <= L < 1 -> 0 < eps -> exists n, L ^ n * B < eps.
Proof.
  intros HL He. destruct (pow_lt_1_zero L ltac:(rewrite Rabs_pos_eq by lra; lra) (eps / (Rabs B + 1))) as [n Hn].
  { apply Rdiv_lt_0_compat; [trivial|]. pose proof (Rabs_pos B). lra. }
  exists n. specialize (Hn n ltac:(lia)). rewrite Rabs_pos_eq in Hn by (apply pow_le; lra).
  pose proof (Rabs_pos B). pose proof (Rle_abs B). assert (0 <= L ^ n) by (apply pow_le; lra).
  apply Rle_lt_trans with (L ^ n * (Rabs B + 1)).
  - apply Rmult_le_compat_l; lra.
  - apply (Rmult_lt_compat_r (Rabs B + 1)) in Hn; [|lra]. unfold Rdiv in Hn. rewrite Rmult_assoc, Rinv_l, Rmult_1_r in Hn by lra. exact Hn.
Qed.

Lemma contraction (x u : A -> nat -> R) L X0 U : 0 <= L < 1 -> 0 <= X0 -> 0 <= U ->
  (forall a, x a 0%nat <= X0) -> (forall a k, (S k < len a)%nat -> x a (S k) <= L * x a k + u a k) ->
  (forall a k, (k < len a)%nat -> u a k <= U) -> vanishes u -> vanishes x.
Proof.
  intros HL HX HU H0 Hs Hu Hv.
  set (B := X0 + U / (1 - L)).
  assert (HUL : 0 <= U / (1 - L)) by (apply Rmult_le_pos; [trivial|]; left; apply Rinv_0_lt_compat; lra).
  assert (HB : forall a k, (k < len a)%nat -> x a k <= B).
  { intros a k. induction k as [|k IH]; intros Hk; [specialize (H0 a); unfold B; lra|].
    specialize (IH ltac:(lia)). specialize (Hs a k Hk). specialize (Hu a k ltac:(lia)).
    assert (L * x a k <= L * B) by (apply Rmult_le_compat_l; lra).
    assert (E : U = (1 - L) * (U / (1 - L))) by (field; lra).
    apply Rle_trans with (L * B + U); [lra|]. rewrite E at 1. unfold B. nra. }
  intros eps He. destruct (Hv (eps * (1 - L) / 2)) as [K HK]; [nra|].
  destruct (pow_small L B (eps / 2) HL ltac:(lra)) as [n Hn].
  exists (K + n)%nat. intros a k Hk Hlen.
  assert (Hd : forall j, (K + j < len a)%nat -> x a (K + j)%nat <= L ^ j * B + eps / 2).
  { induction j as [|j IH]; intros Hj.
    - rewrite Nat.add_0_r. cbn. pose proof (HB a K ltac:(lia)). lra.
    - replace (K + S j)%nat with (S (K + j)) in * by lia. specialize (IH ltac:(lia)). specialize (Hs a (K + j)%nat Hj).
      specialize (HK a (K + j)%nat ltac:(lia) ltac:(lia)). cbn.
      assert (L * x a (K + j)%nat <= L * (L ^ j * B + eps / 2)) by (apply Rmult_le_compat_l; lra). nra. }
  specialize (Hd (k - K)%nat). replace (K + (k - K))%nat with k in Hd by lia. specialize (Hd Hlen).
  assert (L ^ (k - K) * B <= L ^ n * B).
  { apply Rmult_le_compat_r; [unfold B; lra|]. replace (k - K)%nat with (n + (k - K - n))%nat by lia. rewrite pow_add.
    rewrite <- (Rmult_1_r (L ^ n)) at 2. apply Rmult_le_compat_l; [apply pow_le; lra|].
    clear - HL. induction (k - K - n)%nat as [|j IH]; cbn; [lra|]. nra. }
  lra.
Qed.
(** the same if the factor is below L only from some index on *)
Lemma contraction_late (x u : A -> nat -> R) L G X0 U : 0 <= L < 1 -> 0 <= G -> 0 <= X0 -> 0 <= U ->
  (forall a k, 0 <= x a k) -> (forall a, x a 0%nat <= X0) ->
  (forall a k, (S k < len a)%nat -> x a (S k) <= G * x a k + u a k) ->
  (exists K, forall a k, (K <= k)%nat -> (S k < len a)%nat -> x a (S k) <= L * x a k + u a k) ->
  (forall a k, (k < len a)%nat -> u a k <= U) -> vanishes u -> vanishes x.
Proof.
  intros HL HG HX HU Hpos H0 Hs (K & HK) Hu Hv.
  assert (HB : forall k, exists B, 0 <= B /\ forall a, (k < len a)%nat -> x a k <= B).
  { induction k as [|k (B & B0 & IH)]; [exists X0; split; [exact HX|intros; apply H0]|]. exists (G * B + U). split.
    - apply Rplus_le_le_0_compat; [now apply Rmult_le_pos|exact HU].
    - intros a Hk. specialize (Hs a k Hk). specialize (Hu a k ltac:(lia)). specialize (IH a ltac:(lia)).
      assert (G * x a k <= G * B) by (apply Rmult_le_compat_l; lra). lra. }
  destruct (HB K) as (B & B0 & HBK). clear HB.
  assert (HB : exists B', 0 <= B' /\ forall a k, (K <= k)%nat -> (k < len a)%nat -> x a k <= B').
  { exists (B + U / (1 - L)). assert (HUL : 0 <= U / (1 - L)) by (apply Rmult_le_pos; [trivial|]; left; apply Rinv_0_lt_compat; lra).
    split; [lra|]. intros a k Hk. replace k with (K + (k - K))%nat by lia. generalize (k - K)%nat. clear k Hk. induction n as [|n IH]; intros Hn.
    - rewrite Nat.add_0_r in *. specialize (HBK a Hn). lra.
    - replace (K + S n)%nat with (S (K + n)) in * by lia. specialize (IH ltac:(lia)). specialize (HK a (K + n)%nat ltac:(lia) Hn).
      specialize (Hu a (K + n)%nat ltac:(lia)). set (B1 := B + U / (1 - L)) in *.
      assert (L * x a (K + n)%nat <= L * B1) by (apply Rmult_le_compat_l; lra).
      assert (E : U = (1 - L) * (U / (1 - L))) by (field; lra). apply Rle_trans with (L * B1 + U); [lra|]. rewrite E at 1. unfold B1. nra. }
  destruct HB as (B1 & HB1 & HB). intros eps He. destruct (Hv (eps * (1 - L) / 2)) as [K2 HK2]; [nra|].
  destruct (pow_small L B1 (eps / 2) HL ltac:(lra)) as [n Hn]. set (J := Nat.max K K2).
  exists (J + n)%nat. intros a k Hk Hlen.
  assert (Hd : forall j, (J + j < len a)%nat -> x a (J + j)%nat <= L ^ j * B1 + eps / 2).
  { induction j as [|j IH]; intros Hj.
    - rewrite Nat.add_0_r in *. cbn. pose proof (HB a J ltac:(lia) Hj). lra.
    - replace (J + S j)%nat with (S (J + j)) in * by lia. specialize (IH ltac:(lia)). specialize (HK a (J + j)%nat ltac:(lia) Hj).
      specialize (HK2 a (J + j)%nat ltac:(lia) ltac:(lia)). cbn.
      assert (L * x a (J + j)%nat <= L * (L ^ j * B1 + eps / 2)) by (apply Rmult_le_compat_l; lra). nra. }
  specialize (Hd (k - J)%nat). replace (J + (k - J))%nat with k in Hd by lia. specialize (Hd Hlen).
  assert (L ^ (k - J) * B1 <= L ^ n * B1).
  { apply Rmult_le_compat_r; [lra|]. replace (k - J)%nat with (n + (k - J - n))%nat by lia. rewrite pow_add.
    rewrite <- (Rmult_1_r (L ^ n)) at 2. apply Rmult_le_compat_l; [apply pow_le; lra|].
    clear - HL. induction (k - J - n)%nat as [|j IH]; cbn; [lra|]. nra. }
  lra.
Qed.
End Fam.

(** ** limits of the subsystems *)
Lemma limit_tends s i l : sub_ok s -> (i < sub_dim s)%nat -> limit s i l ->
  exists X Xd B, (forall ts, sub_ana s ts = Ok (map X ts, map Xd ts)) /\ tends_to (comp X i) l /\
    forall t, 0 <= t -> Rabs (comp X i t - l) <= B.
Proof.
  intros [Ht H] Hi. unfold sub_dim in Hi. destruct s as [e|g|h|h]; cbn [sub_ana sub_init sub_tau limit] in *.
  - intros [Hl Ha]. destruct H as [H1 H2]. exists (eX e), (eXd e), (Rabs (comp (eX e) i 0 - l)).
    destruct (e_converges e i Hi Ha Ht) as (C1 & C2 & _). rewrite Hl in C1, C2.
    split; [intros ts; now apply e_ana_ok|]. split; [exact C1|]. intros t H0. apply C2. lra.
  - intros [-> Hr]. destruct H as (H1 & H2 & H3). exists (sX g), (sXd g), (Rabs (sK g i)).
    split; [intros ts; now apply s_ana_ok|]. split; [apply s_shrinks; trivial|].
    intros t _. unfold comp. rewrite nth_sX by trivial. rewrite Rminus_0_r. unfold Rdiv. rewrite Rabs_mult.
    pose proof (sB_pos g i). pose proof (exp_pos (- par_val (g_rate g) i * t)).
    assert (0 < sB g i * exp (- par_val (g_rate g) i * t)) by nra.
    rewrite (Rabs_pos_eq (/ _)) by (left; apply Rinv_0_lt_compat; lra).
    rewrite <- (Rmult_1_r (Rabs (sK g i))) at 2. apply Rmult_le_compat_l; [apply Rabs_pos|].
    rewrite <- Rinv_1. apply Rinv_le_contravar; lra.
  - intros [Hl Ha]. destruct H as (H1 & H2 & H3). destruct (richards_exact h Ht H1 H2 H3) as (X & Xd & Hs & Hlim).
    destruct (Hlim i Hi) as [Hc _]. destruct (Hc Ha) as [C1 [C2 _]]. rewrite Hl in C1, C2.
    exists X, Xd, (Rabs (comp X i 0 - l)). split; [apply Hs|]. split; [exact C1|]. intros t H0. apply C2. lra.
  - intros [].
Qed.

Section S.
Variable pf : nat -> list (string * pval) -> R -> res R.

Lemma at_rows X ts k i : (k < length ts)%nat -> at_ (map X ts) k i = comp X i (nth k ts 0).
Proof. intros H. unfold at_, comp. now rewrite (nth_map_l _ _ _ 0). Qed.
Lemma ana_spec' m ts suppress r : wf pf m -> ana pf m ts suppress = Ok r -> (0 < length ts)%nat -> rollout_spec pf m ts suppress r.
Proof.
  intros W E H. destruct (ana_total pf m ts suppress W) as (r' & E' & Hs); [destruct ts; [cbn in H; lia|discriminate]|].
  rewrite E in E'. injection E' as <-. exact Hs.
Qed.

(** the target: tends to the attractor, and is bounded *)
Lemma follows_target m i : wf pf m -> follows m -> (i < m_dim m)%nat -> exists f B,
  tends_to f (nth i (m_attr m) 0) /\ (forall t, 0 <= t -> Rabs (f t - nth i (m_attr m) 0) <= B) /\
  forall ts suppress r k, ana pf m ts suppress = Ok r -> (k < length ts)%nat ->
    target m (gv (m_dim m) (a_xs r) k i) i = f (nth k ts 0).
Proof.
  intros W F Hi. unfold follows in F.
  pose proof W as (_ & _ & _ & _ & _ & _ & _ & _ & _ & _ & _ & _ & Og & _).
  destruct (m_goal m) as [g|] eqn:Eg.
  - destruct Og as [Og Od]. rewrite <- Od in Hi. specialize (F i ltac:(now rewrite <- Od)).
    destruct (limit_tends g i _ Og Hi F) as (X & Xd & B & E & T & HB).
    set (y0 := nth i (opt (m_y0 m) []) 0). set (at0 := nth i (m_attr m) 0) in *.
    exists (fun t => if m_req m then y0 + (at0 - y0) * comp X i t else comp X i t), (Rmax B (Rabs (at0 - y0) * B)).
    split; [|split].
    + destruct (m_req m); [|exact T]. intros eps He. destruct (T (eps / (Rabs (at0 - y0) + 1))) as [T0 HT].
      { apply Rdiv_lt_0_compat; [trivial|]. pose proof (Rabs_pos (at0 - y0)). lra. }
      exists T0. intros t Ht. specialize (HT t Ht). replace (y0 + (at0 - y0) * comp X i t - at0) with ((at0 - y0) * (comp X i t - 1)) by ring.
      rewrite Rabs_mult. pose proof (Rabs_pos (at0 - y0)). pose proof (Rabs_pos (comp X i t - 1)).
      apply (Rmult_lt_compat_r (Rabs (at0 - y0) + 1)) in HT; [|lra]. unfold Rdiv in HT. rewrite Rmult_assoc, Rinv_l, Rmult_1_r in HT by lra. nra.
    + intros t Ht. specialize (HB t Ht). destruct (m_req m).
      * replace (y0 + (at0 - y0) * comp X i t - at0) with ((at0 - y0) * (comp X i t - 1)) by ring. rewrite Rabs_mult.
        apply Rle_trans with (Rabs (at0 - y0) * B); [|apply Rmax_r]. apply Rmult_le_compat_l; [apply Rabs_pos|trivial].
      * apply Rle_trans with B; [trivial|apply Rmax_l].
    + intros ts suppress r k Ha Hk. destruct (ana_spec' m ts suppress r W Ha ltac:(lia)) as (_ & _ & _ & _ & _ & _ & _ & HG & _).
      rewrite Eg in HG. destruct HG as (ps & pds & EG & HG). rewrite E in EG. assert (Eps : ps = map X ts) by congruence. subst ps.
      rewrite (proj1 (HG k i Hk ltac:(now rewrite <- Od))). rewrite at_rows by trivial. reflexivity.
  - exists (fun _ => nth i (m_attr m) 0), 0. split; [|split].
    + intros eps He. exists 0. intros t _. now rewrite Rminus_diag_eq, Rabs_R0.
    + intros t _. rewrite Rminus_diag_eq, Rabs_R0 by reflexivity. lra.
    + intros ts suppress r k Ha Hk. destruct (ana_spec' m ts suppress r W Ha ltac:(lia)) as (_ & _ & _ & _ & _ & _ & _ & HG & _).
      rewrite Eg in HG. rewrite (proj1 (HG k i Hk Hi)). unfold target. now rewrite F.
Qed.
Lemma follows_tracks m : wf pf m -> follows m -> tracks pf m (m_attr m).
Proof.
  intros W F i eps Hi He. destruct (follows_target m i W F Hi) as (f & B & T & _ & E).
  destruct (T eps He) as [T0 HT]. exists T0. intros ts suppress r k Ha Hk HT0. rewrite (E _ _ _ _ Ha Hk). now apply HT.
Qed.
Lemma movable_set m y m' : movable m -> set_yattr m y = Ok m' -> follows m' /\ m_attr m' = y /\ m_dim m' = m_dim m /\ movable m' /\ length y = m_dim m.
Proof.
  unfold set_yattr, movable, follows. destruct (Nat.eqb (length y) (m_dim m)) eqn:El; [|discriminate].
  apply Nat.eqb_eq in El. unfold goal_attr. destruct (m_goal m) as [g|] eqn:Eg.
  - destruct (m_req m) eqn:Er.
    + intros H E. injection E as <-. cbn. rewrite Er. repeat split; trivial.
    + intros H E. destruct g as [e|g|h|h].
      * cbn in E. destruct (Nat.eqb _ _) eqn:E1; [|discriminate]. cbn in E. injection E as <-. cbn. rewrite Er.
        split; [|repeat split; trivial]. intros i Hi. cbn. split; [reflexivity|]. now apply H.
      * cbn in E. injection E as <-. cbn. rewrite Er. split; [|repeat split; trivial]. intros i Hi. now destruct (H i Hi).
      * cbn in E. injection E as <-. cbn. rewrite Er. split; [|repeat split; trivial]. intros i Hi. now destruct (H i Hi).
      * cbn in E. injection E as <-. cbn. rewrite Er. split; [|repeat split; trivial]. intros i Hi. now destruct (H i Hi).
  - intros H E. injection E as <-. cbn. repeat split; trivial.
Qed.

(** ** convergence of the position *)
Section Conv.
Variable m : dmp.
Variable suppress : bool.
Hypothesis W : wf pf m.
Hypothesis Fo : follows m.
Variable i : nat.
Hypothesis Hi : (i < m_dim m)%nat.
Variable D : R.
Hypothesis Hda : settles m i D.
Variables dmin dmax : R.
Hypothesis Hmin : 0 < dmin.
Hypothesis Hcrit : critical m i D dmax.
(** the forcing term is suppressed, or fades out *)
Variable Bf : R.
Hypothesis Hforce : suppress = true \/ (limit (m_gating m) 0 0 /\ forall ph, Rabs (pred_val pf m ph i) <= Bf).

Let fam : Type := { p : list R * ana_result | steps dmin dmax (fst p) /\ ana pf m (fst p) suppress = Ok (snd p) /\ (0 < length (fst p))%nat }.
Let len (a : fam) := length (fst (proj1_sig a)).
Let tm (a : fam) k := nth k (fst (proj1_sig a)) 0.
Let xs (a : fam) := a_xs (snd (proj1_sig a)).
Let y (a : fam) k := yv (xs a) k i.
Let z (a : fam) k := zv (m_dim m) (xs a) k i.
Let g := nth i (m_attr m) 0.

Lemma fam_spec (a : fam) : rollout_spec pf m (fst (proj1_sig a)) suppress (snd (proj1_sig a)).
Proof. destruct a as [[ts r] (H1 & H2 & H3)]. cbn in *. now apply ana_spec'. Qed.
Lemma fam_time (a : fam) k : (k < len a)%nat -> INR k * dmin <= tm a k.
Proof.
  destruct a as [[ts r] (H1 & H2 & H3)]. unfold len, tm. cbn in *. destruct H1 as [Ha Hb].
  induction k as [|k IH]; intros Hk; [cbn; lra|]. specialize (IH ltac:(lia)). specialize (Hb k Hk). rewrite S_INR. lra.
Qed.
Lemma late T : exists N, forall (a : fam) k, (N <= k)%nat -> (k < len a)%nat -> T <= tm a k.
Proof.
  destruct (nat_above (T / dmin)) as [N HN]. exists N. intros a k Hk Hlen.
  pose proof (fam_time a k Hlen). assert (INR N <= INR k) by now apply le_INR.
  apply Rle_trans with (INR k * dmin); [|trivial]. apply Rle_trans with (INR N * dmin); [|now apply Rmult_le_compat_r; lra].
  apply (Rmult_le_reg_r (/ dmin)); [now apply Rinv_0_lt_compat|]. rewrite Rmult_assoc, Rinv_r, Rmult_1_r by lra. unfold Rdiv in HN. lra.
Qed.
Lemma time_nonneg (a : fam) k : (k < len a)%nat -> 0 <= tm a k.
Proof. intros H. pose proof (fam_time a k H). pose proof (pos_INR k). assert (0 <= INR k * dmin) by (apply Rmult_le_pos; lra). lra. Qed.

Lemma goal_gap : exists B, 0 <= B /\ (forall (a : fam) k, (k < len a)%nat -> Rabs (target m (gv (m_dim m) (xs a) k i) i - g) <= B) /\
  vanishes fam len (fun a k => Rabs (target m (gv (m_dim m) (xs a) k i) i - g)).
Proof.
  destruct (follows_target m i W Fo Hi) as (f & B & T & HB & E).
  assert (E' : forall (a : fam) k, (k < len a)%nat -> target m (gv (m_dim m) (xs a) k i) i = f (tm a k)).
  { intros [[ts r] (H1 & H2 & H3)] k Hk. unfold xs, tm. cbn in *. eapply E; eauto. }
  exists B. split; [|split].
  - specialize (HB 0 ltac:(lra)). pose proof (Rabs_pos (f 0 - nth i (m_attr m) 0)). lra.
  - intros a k Hk. rewrite E' by trivial. apply HB. now apply time_nonneg.
  - intros eps He. destruct (T eps He) as [T0 HT]. destruct (late T0) as [N HN]. exists N. intros a k H1 H2.
    rewrite E' by trivial. apply HT. now apply HN.
Qed.
Lemma force_gap : exists B, 0 <= B /\ (forall (a : fam) k, (k < len a)%nat -> Rabs (at_ (a_forcing (snd (proj1_sig a))) k i) <= B) /\
  vanishes fam len (fun a k => Rabs (at_ (a_forcing (snd (proj1_sig a))) k i)).
Proof.
  destruct Hforce as [Es|[Hl Hp]].
  - assert (E0 : forall (a : fam) k, (k < len a)%nat -> at_ (a_forcing (snd (proj1_sig a))) k i = 0).
    { intros a k Hk. destruct (fam_spec a) as (_ & _ & _ & _ & _ & _ & _ & _ & _ & HF & _).
      destruct (HF k i Hk Hi) as [F1 F2]. rewrite F2, F1. assert (E : forall x : R, (if suppress then 0 else x) = 0) by (rewrite Es; reflexivity). rewrite E. ring. }
    exists 0. split; [lra|]. split; [intros a k Hk; rewrite E0, Rabs_R0 by trivial; lra|].
    intros eps He. exists 0%nat. intros a k _ Hk. now rewrite E0, Rabs_R0.
  - assert (Oga : sub_ok (m_gating m) /\ sub_dim (m_gating m) = 1%nat) by (split; apply W). destruct Oga as [Oga Od].
    destruct (limit_tends (m_gating m) 0 0 Oga ltac:(lia) Hl) as (X & Xd & B & E & T & HB).
    set (F := Rabs (factor m i)).
    assert (HBf : 0 <= Bf) by (specialize (Hp 0); pose proof (Rabs_pos (pred_val pf m 0 i)); lra).
    assert (HF0 : 0 <= F) by apply Rabs_pos.
    assert (HB0 : 0 <= B) by (specialize (HB 0 ltac:(lra)); pose proof (Rabs_pos (comp X 0 0 - 0)); lra).
    assert (Hle : forall (a : fam) k, (k < len a)%nat -> Rabs (at_ (a_forcing (snd (proj1_sig a))) k i) <= Bf * F * Rabs (comp X 0 (tm a k) - 0)).
    { intros a k Hk. destruct (fam_spec a) as (_ & _ & _ & _ & _ & _ & (ps & pds & EA & HA) & _ & _ & HF & _).
      destruct (HF k i Hk Hi) as [F1 F2]. rewrite F2, F1, !Rabs_mult. fold F. rewrite (proj1 (HA k Hk)).
      rewrite E in EA. assert (Eps : ps = map X (fst (proj1_sig a))) by congruence. rewrite Eps, at_rows by trivial. fold (tm a k). rewrite Rminus_0_r.
      set (q := Rabs (if suppress then 0 else pred_val pf m (pv (m_dim m) (a_xs (snd (proj1_sig a))) k) i)).
      assert (Hq : q <= Bf) by (unfold q; assert (E' : forall x, Rabs x <= Bf -> Rabs (if suppress then 0 else x) <= Bf) by (intros x Hx; destruct suppress; [rewrite Rabs_R0; trivial|trivial]); apply E', Hp).
      pose proof (Rabs_pos (comp X 0 (tm a k))). replace (Bf * F * Rabs (comp X 0 (tm a k))) with (Bf * Rabs (comp X 0 (tm a k)) * F) by ring.
      apply Rmult_le_compat_r; [trivial|]. apply Rmult_le_compat_r; trivial. }
    exists (Bf * F * B). assert (0 <= Bf * F) by now apply Rmult_le_pos. split; [now apply Rmult_le_pos|]. split.
    + intros a k Hk. eapply Rle_trans; [now apply Hle|]. apply Rmult_le_compat_l; [trivial|]. apply HB. now apply time_nonneg.
    + intros eps He. destruct (T (eps / (Bf * F + 1))) as [T0 HT]; [apply Rdiv_lt_0_compat; lra|].
      destruct (late T0) as [N HN]. exists N. intros a k H1 H2. eapply Rle_lt_trans; [now apply Hle|].
      specialize (HT (tm a k) (HN a k H1 H2)). apply (Rmult_lt_compat_r (Bf * F + 1)) in HT; [|lra].
      unfold Rdiv in HT. rewrite Rmult_assoc, Rinv_l, Rmult_1_r in HT by lra. pose proof (Rabs_pos (comp X 0 (tm a k) - 0)). nra.
Qed.

(** the damping coefficient tends to that of the spring *)
Lemma damp_gap : exists B, 0 <= B /\ (forall (a : fam) k, (k < len a)%nat -> Rabs (cv (m_dim m) (xs a) k i - D) <= B) /\
  vanishes fam len (fun a k => Rabs (cv (m_dim m) (xs a) k i - D)).
Proof.
  pose proof W as (_ & _ & _ & _ & _ & _ & _ & _ & _ & _ & _ & _ & _ & Od & _). unfold settles in Hda.
  destruct (m_damping m) as [s|] eqn:Ed.
  - destruct Od as [Os Osd]. destruct (limit_tends s i _ Os ltac:(lia) Hda) as (X & Xd & B & E & T & HB).
    assert (Ec : forall (a : fam) k, (k < len a)%nat -> cv (m_dim m) (xs a) k i = comp X i (tm a k)).
    { intros a k Hk. destruct (fam_spec a) as (_ & _ & _ & _ & _ & _ & _ & _ & HD & _). rewrite Ed in HD. destruct HD as (ps & pds & EP & HP).
      destruct (HP k i Hk Hi) as [C _]. unfold xs. rewrite C. rewrite E in EP. assert (Eps : ps = map X (fst (proj1_sig a))) by congruence. rewrite Eps, at_rows by trivial. reflexivity. }
    exists B. split; [specialize (HB 0 ltac:(lra)); pose proof (Rabs_pos (comp X i 0 - D)); lra|]. split.
    + intros a k Hk. rewrite Ec by trivial. apply HB. now apply time_nonneg.
    + intros eps He. destruct (T eps He) as [T0 HT]. destruct (late T0) as [N HN]. exists N. intros a k H1 H2. rewrite Ec by trivial. apply HT. now apply HN.
  - assert (Ec : forall (a : fam) k, (k < len a)%nat -> cv (m_dim m) (xs a) k i - D = 0).
    { intros a k Hk. destruct (fam_spec a) as (_ & _ & _ & _ & _ & _ & _ & _ & HD & _). rewrite Ed in HD. destruct (HD k i Hk Hi) as [C _]. unfold xs. rewrite C, Hda. ring. }
    exists 0. split; [lra|]. split; [intros a k Hk; rewrite Ec, Rabs_R0 by trivial; lra|]. intros eps He. exists 0%nat. intros a k _ Hk. now rewrite Ec, Rabs_R0.
Qed.

Let K := par_val (d_spring (m_spring m)) i.
Let M := par_val (d_mass (m_spring m)) i.
Let tau := m_tau m.
Let c := D / (2 * M).
Let w (a : fam) k := z a k + c * (y a k - g).
Let dt (a : fam) k := tm a (S k) - tm a k.
Let lam (a : fam) k := 1 - dt a k * (c / tau).
Let del (a : fam) k := K * (target m (gv (m_dim m) (xs a) k i) i - g) / (M * tau) + at_ (a_forcing (snd (proj1_sig a))) k i / tau.

Let dv (a : fam) k := cv (m_dim m) (xs a) k i - D.

Lemma M_nz : M <> 0.
Proof. unfold M. now apply W. Qed.
Lemma tau_nz : tau <> 0.
Proof. apply W. Qed.
Lemma rec_step (a : fam) k : (S k < len a)%nat ->
  w a (S k) = lam a k * w a k + dt a k * del a k - dt a k * dv a k / (M * tau) * (w a k - c * (y a k - g)) /\
  y a (S k) - g = lam a k * (y a k - g) + dt a k / tau * w a k.
Proof.
  intros Hk. pose proof M_nz. pose proof tau_nz. destruct (fam_spec a) as (_ & _ & _ & _ & _ & _ & _ & _ & _ & _ & _ & HR & HS).
  destruct (HS k i Hk Hi) as [S1 S2]. destruct (HR k i ltac:(unfold len in Hk; lia) Hi) as [R1 R2].
  fold (xs a) in *. fold (y a k) (y a (S k)) (z a k) (z a (S k)) (tm a (S k)) (tm a k) (dt a k) in *.
  rewrite R1 in S1. rewrite R2 in S2. unfold accel in S2. fold K M tau in S1, S2.
  assert (EC : cv (m_dim m) (xs a) k i = D + dv a k) by (unfold dv; ring). rewrite EC in S2.
  destruct Hcrit as (HC & _ & _). fold K M in HC.
  assert (EK : K = c * c * M) by (unfold c; field_simplify; [|trivial]; rewrite <- Rsqr_pow2; unfold Rsqr; rewrite HC; field; trivial).
  assert (ED : D = 2 * M * c) by (unfold c; field; trivial).
  set (G := target m (gv (m_dim m) (xs a) k i) i) in *. set (f := at_ (a_forcing (snd (proj1_sig a))) k i) in *.
  set (dk := dv a k) in *. unfold w, lam, del. fold G f. rewrite S1, S2, ED, EK. split; field; repeat split; trivial.
Qed.
Lemma dt_range (a : fam) k : (S k < len a)%nat -> dmin <= dt a k <= dmax.
Proof. destruct a as [[ts r] ((H1 & H1') & H2 & H3)]. unfold len, dt, tm. cbn in *. apply H1'. Qed.
Lemma ctau : c / tau = D / (M * tau) / 2.
Proof. pose proof M_nz. pose proof tau_nz. unfold c. field. now split. Qed.
Lemma lam_bound : exists L, 0 <= L < 1 /\ forall (a : fam) k, (S k < len a)%nat -> Rabs (lam a k) <= L.
Proof.
  destruct Hcrit as (_ & H1 & H2). fold M tau in H1, H2. pose proof ctau as Ec.
  set (p := D / (M * tau)) in *. destruct (Rle_lt_dec dmin dmax) as [Hle|Hlt].
  - exists (Rmax (1 - dmin * (p / 2)) (dmax * (p / 2) - 1)). split.
    + assert (dmin * p <= dmax * p) by (apply Rmult_le_compat_r; lra). assert (0 < dmin * p) by now apply Rmult_lt_0_compat.
      unfold Rmax. destruct (Rle_dec _ _); split; lra.
    + intros a k Hk. pose proof (dt_range a k Hk). unfold lam. rewrite Ec.
      assert (dmin * (p / 2) <= dt a k * (p / 2)) by (apply Rmult_le_compat_r; lra).
      assert (dt a k * (p / 2) <= dmax * (p / 2)) by (apply Rmult_le_compat_r; lra).
      apply Rabs_le. pose proof (Rmax_l (1 - dmin * (p / 2)) (dmax * (p / 2) - 1)). pose proof (Rmax_r (1 - dmin * (p / 2)) (dmax * (p / 2) - 1)). lra.
  - exists 0. split; [lra|]. intros a k Hk. pose proof (dt_range a k Hk). lra.
Qed.

Lemma vanishes_lin u v p q : 0 <= p -> 0 <= q -> vanishes fam len u -> vanishes fam len v -> vanishes fam len (fun a k => p * u a k + q * v a k).
Proof.
  intros Hp Hq Hu Hv eps He. destruct (Hu (eps / (p + q + 1))) as [N1 H1]; [apply Rdiv_lt_0_compat; lra|].
  destruct (Hv (eps / (p + q + 1))) as [N2 H2]; [apply Rdiv_lt_0_compat; lra|].
  exists (max N1 N2). intros a k Hk Hl. specialize (H1 a k ltac:(lia) Hl). specialize (H2 a k ltac:(lia) Hl).
  set (e := eps / (p + q + 1)) in *. assert (Ee : eps = (p + q + 1) * e) by (unfold e; field; lra).
  assert (0 < e) by (unfold e; apply Rdiv_lt_0_compat; lra).
  assert (p * u a k <= p * e) by (apply Rmult_le_compat_l; lra). assert (q * v a k <= q * e) by (apply Rmult_le_compat_l; lra). nra.
Qed.

Lemma converge eps : 0 < eps -> exists N, forall ts r, steps dmin dmax ts -> ana pf m ts suppress = Ok r ->
  forall k, (N <= k)%nat -> (k < length ts)%nat -> Rabs (yv (a_xs r) k i - nth i (m_attr m) 0) < eps.
Proof.
  intros He. destruct lam_bound as (L & HL & HLb). pose proof tau_nz as Ht. pose proof M_nz as HM.
  destruct goal_gap as (B1 & HB1 & Hg1 & Hg2). destruct force_gap as (B2 & HB2 & Hf1 & Hf2).
  set (d := Rmax dmax 0). assert (Hd : 0 <= d) by apply Rmax_r.
  set (p := d * Rabs (K / (M * tau))). set (q := d * Rabs (/ tau)).
  assert (Hp : 0 <= p) by (apply Rmult_le_pos; [trivial|apply Rabs_pos]).
  assert (Hq : 0 <= q) by (apply Rmult_le_pos; [trivial|apply Rabs_pos]).
  set (gg := fun (a : fam) k => Rabs (target m (gv (m_dim m) (xs a) k i) i - g)) in *.
  set (ff := fun (a : fam) k => Rabs (at_ (a_forcing (snd (proj1_sig a))) k i)) in *.
  assert (Hdt : forall (a : fam) k, (S k < len a)%nat -> Rabs (dt a k) <= d).
  { intros a k Hk. pose proof (dt_range a k Hk). rewrite Rabs_pos_eq by lra. pose proof (Rmax_l dmax 0). unfold d. lra. }
  assert (Hy0 : forall a : fam, y a 0%nat = nth i (d_init (m_spring m)) 0 /\ z a 0%nat = nth (m_dim m + i) (d_init (m_spring m)) 0).
  { intros a. destruct (fam_spec a) as (_ & _ & _ & _ & _ & _ & _ & _ & _ & _ & H0 & _). apply (H0 i Hi). }
  set (e0 := nth i (d_init (m_spring m)) 0 - g). set (w0 := nth (m_dim m + i) (d_init (m_spring m)) 0 + c * e0).
  destruct damp_gap as (B3 & HB3 & Hd1 & Hd2).
  set (P := d * Rabs (/ (M * tau))). assert (HP : 0 <= P) by (apply Rmult_le_pos; [trivial|apply Rabs_pos]).
  set (eta := (1 - L) / (4 * (q + 1))). assert (Heta : 0 < eta) by (apply Rdiv_lt_0_compat; lra).
  assert (Hetaq : eta * q <= (1 - L) / 4).
  { replace ((1 - L) / 4) with (eta * (q + 1)) by (unfold eta; field; lra). apply Rmult_le_compat_l; lra. }
  set (V := fun (a : fam) k => Rabs (w a k) + eta * Rabs (y a k - g)).
  assert (HV : forall a k, 0 <= V a k).
  { intros a k. unfold V. pose proof (Rabs_pos (w a k)). pose proof (Rabs_pos (y a k - g)). assert (0 <= eta * Rabs (y a k - g)) by (apply Rmult_le_pos; lra). lra. }
  set (u := fun a k => p * gg a k + q * ff a k).
  (* one step, with the factor that depends on the damping *)
  set (Q := P + P * Rabs c / eta). assert (HPc : 0 <= P * Rabs c / eta).
  { apply Rmult_le_pos; [apply Rmult_le_pos; [trivial|apply Rabs_pos]|left; now apply Rinv_0_lt_compat]. }
  assert (HQ : 0 <= Q) by (unfold Q; lra).
  assert (Step : forall (a : fam) k, (S k < len a)%nat -> V a (S k) <= (L + (1 - L) / 4 + Q * Rabs (dv a k)) * V a k + u a k).
  { intros a k Hk. destruct (rec_step a k Hk) as [E1 E2]. unfold V. rewrite E1, E2. clear E1 E2.
    set (e := y a k - g). set (v := w a k). set (dk := dv a k).
    assert (A1 : Rabs (lam a k * v) <= L * Rabs v) by (rewrite Rabs_mult; apply Rmult_le_compat_r; [apply Rabs_pos|now apply HLb]).
    assert (A2 : Rabs (lam a k * e) <= L * Rabs e) by (rewrite Rabs_mult; apply Rmult_le_compat_r; [apply Rabs_pos|now apply HLb]).
    assert (A3 : Rabs (dt a k / tau * v) <= q * Rabs v).
    { rewrite Rabs_mult. apply Rmult_le_compat_r; [apply Rabs_pos|]. unfold q, Rdiv. rewrite Rabs_mult. apply Rmult_le_compat_r; [apply Rabs_pos|now apply Hdt]. }
    assert (A4 : Rabs (dt a k * del a k) <= u a k).
    { unfold u, del. rewrite Rabs_mult. set (G := target m (gv (m_dim m) (xs a) k i) i - g). set (f := at_ (a_forcing (snd (proj1_sig a))) k i).
      replace (gg a k) with (Rabs G) by reflexivity. replace (ff a k) with (Rabs f) by reflexivity.
      apply Rle_trans with (Rabs (dt a k) * (Rabs (K / (M * tau)) * Rabs G + Rabs (/ tau) * Rabs f)).
      + apply Rmult_le_compat_l; [apply Rabs_pos|]. eapply Rle_trans; [apply Rabs_triang|]. rewrite <- !Rabs_mult.
        replace (K * G / (M * tau)) with (K / (M * tau) * G) by (unfold Rdiv; ring). replace (f / tau) with (/ tau * f) by (unfold Rdiv; ring). lra.
      + unfold p, q. rewrite !Rmult_assoc, <- Rmult_plus_distr_l. apply Rmult_le_compat_r; [|now apply Hdt].
        apply Rplus_le_le_0_compat; apply Rmult_le_pos; apply Rabs_pos. }
    assert (A5 : Rabs (dt a k * dk / (M * tau) * (v - c * e)) <= P * Rabs dk * (Rabs v + Rabs c * Rabs e)).
    { rewrite Rabs_mult. apply Rmult_le_compat; try apply Rabs_pos.
      - unfold Rdiv, P. rewrite !Rabs_mult, !Rmult_assoc. rewrite (Rmult_comm (Rabs dk)).
        apply Rmult_le_compat_r; [apply Rmult_le_pos; apply Rabs_pos|now apply Hdt].
      - unfold Rminus. eapply Rle_trans; [apply Rabs_triang|]. rewrite Rabs_Ropp, Rabs_mult. lra. }
    pose proof (Rabs_pos v) as V0. pose proof (Rabs_pos e) as E0. pose proof (Rabs_pos dk) as D0. pose proof (Rabs_pos c) as C0.
    assert (T1 : Rabs (lam a k * v + dt a k * del a k - dt a k * dk / (M * tau) * (v - c * e)) <= L * Rabs v + u a k + P * Rabs dk * (Rabs v + Rabs c * Rabs e)).
    { unfold Rminus at 1. eapply Rle_trans; [apply Rabs_triang|]. rewrite Rabs_Ropp. eapply Rle_trans; [apply Rplus_le_compat_r, Rabs_triang|]. lra. }
    assert (T2 : Rabs (lam a k * e + dt a k / tau * v) <= L * Rabs e + q * Rabs v) by (eapply Rle_trans; [apply Rabs_triang|lra]).
    apply (Rmult_le_compat_l eta) in T2; [|lra].
    assert (X1 : eta * q * Rabs v <= (1 - L) / 4 * Rabs v) by (apply Rmult_le_compat_r; lra).
    assert (X2 : P * Rabs dk * (Rabs c * Rabs e) = P * Rabs c / eta * Rabs dk * (eta * Rabs e)) by (field; lra).
    set (ee := eta * Rabs e) in *. assert (0 <= ee) by (apply Rmult_le_pos; lra).
    assert (Y1 : 0 <= P * Rabs c / eta * Rabs dk * Rabs v) by (apply Rmult_le_pos; [now apply Rmult_le_pos|trivial]).
    assert (Y2 : 0 <= P * Rabs dk * ee) by (apply Rmult_le_pos; [now apply Rmult_le_pos|trivial]).
    assert (Y3 : 0 <= (1 - L) / 4 * ee) by (apply Rmult_le_pos; lra).
    replace ((L + (1 - L) / 4 + Q * Rabs dk) * (Rabs v + ee) + u a k) with
      (L * Rabs v + L * ee + (1 - L) / 4 * Rabs v + (1 - L) / 4 * ee + P * Rabs dk * Rabs v + P * Rabs dk * ee
       + P * Rabs c / eta * Rabs dk * Rabs v + P * Rabs c / eta * Rabs dk * ee + u a k) by (unfold Q; ring).
    replace (eta * (L * Rabs e + q * Rabs v)) with (L * ee + eta * q * Rabs v) in T2 by (unfold ee; ring).
    rewrite (Rmult_plus_distr_l (P * Rabs dk)), X2 in T1. lra. }
  assert (VV : vanishes fam len V).
  { apply (contraction_late fam len V u ((1 + L) / 2) (1 + Q * B3) (Rabs w0 + eta * Rabs e0) (p * B1 + q * B2)).
    - lra.
    - assert (0 <= Q * B3) by now apply Rmult_le_pos. lra.
    - pose proof (Rabs_pos w0). pose proof (Rabs_pos e0). assert (0 <= eta * Rabs e0) by (apply Rmult_le_pos; lra). lra.
    - apply Rplus_le_le_0_compat; now apply Rmult_le_pos.
    - exact HV.
    - intros a. destruct (Hy0 a) as [E1 E2]. unfold V, w. rewrite E1, E2. fold e0 w0. lra.
    - intros a k Hk. eapply Rle_trans; [now apply Step|]. apply Rplus_le_compat_r. apply Rmult_le_compat_r; [apply HV|].
      assert (Q * Rabs (dv a k) <= Q * B3) by (apply Rmult_le_compat_l; [trivial|apply Hd1; lia]). lra.
    - destruct (Hd2 ((1 - L) / (4 * (Q + 1)))) as [N HN]; [apply Rdiv_lt_0_compat; lra|]. exists N. intros a k Hn Hk.
      eapply Rle_trans; [now apply Step|]. apply Rplus_le_compat_r. apply Rmult_le_compat_r; [apply HV|].
      specialize (HN a k Hn ltac:(lia)). fold (dv a k) in HN. set (x := Rabs (dv a k)) in *. set (eb := (1 - L) / (4 * (Q + 1))) in *.
      assert (Q * x <= Q * eb) by (apply Rmult_le_compat_l; lra).
      assert (Eb : (Q + 1) * eb = (1 - L) / 4) by (unfold eb; field; lra). assert (0 < eb) by (apply Rdiv_lt_0_compat; lra). nra.
    - intros a k Hk. apply Rplus_le_compat; apply Rmult_le_compat_l; trivial; [now apply Hg1|now apply Hf1].
    - apply vanishes_lin; trivial. }
  assert (Ve : vanishes fam len (fun a k => Rabs (y a k - g))).
  { intros eps' He'. destruct (VV (eta * eps')) as [N HN]; [now apply Rmult_lt_0_compat|]. exists N. intros a k H1 H2. specialize (HN a k H1 H2).
    unfold V in HN. pose proof (Rabs_pos (w a k)). apply (Rmult_lt_reg_l eta); [trivial|lra]. }
  destruct (Ve eps He) as [N HN]. exists N. intros ts r Hs Ha k H1 H2.
  assert (Hpos : (0 < length ts)%nat) by lia.
  exact (HN (exist _ (ts, r) (conj Hs (conj Ha Hpos))) k H1 H2).
Qed.
End Conv.

(** ** no overshoot *)
Lemma monotone m i b : wf pf m -> m_goal m = None -> m_req m = false -> m_damping m = None -> (i < m_dim m)%nat ->
  critical m i (par_val (d_damp (m_spring m)) i) 0 -> 0 <= b -> b * (par_val (d_damp (m_spring m)) i / (par_val (d_mass (m_spring m)) i * m_tau m)) <= 2 ->
  nth (m_dim m + i) (d_init (m_spring m)) 0 = 0 ->
  forall ts r, steps 0 b ts -> ana pf m ts true = Ok r ->
  let g := nth i (m_attr m) 0 in let y0 := nth i (d_init (m_spring m)) 0 in
  (forall k, (k < length ts)%nat -> 0 <= (yv (a_xs r) k i - g) * (y0 - g)) /\
  (forall k, (S k < length ts)%nat -> Rabs (yv (a_xs r) (S k) i - g) <= Rabs (yv (a_xs r) k i - g)).
Proof.
  intros W Hg Hq Nd Hi Hcrit Hb Hb2 Hz0 ts r Hst Ha g y0.
  destruct (Nat.eq_dec (length ts) 0) as [E0|E0]; [split; intros; lia|].
  pose proof (ana_spec' m ts true r W Ha ltac:(lia)) as Sr.
  destruct Sr as (_ & _ & _ & _ & _ & _ & _ & HG & HD & HF & H0 & HR & HS).
  rewrite Hg in HG. rewrite Nd in HD.
  set (D := par_val (d_damp (m_spring m)) i) in *. set (M := par_val (d_mass (m_spring m)) i) in *. set (tau := m_tau m) in *.
  set (K := par_val (d_spring (m_spring m)) i) in *.
  assert (HM : M <> 0) by (unfold M; now apply W). assert (Ht : tau <> 0) by apply W.
  set (c := D / (2 * M)). destruct Hcrit as (HC & Hpos & _). fold D M K tau in HC, Hpos.
  assert (Ec : c / tau = D / (M * tau) / 2) by (unfold c; field; now split).
  set (p := D / (M * tau)) in *.
  set (y := fun k => yv (a_xs r) k i). set (z := fun k => zv (m_dim m) (a_xs r) k i).
  set (w := fun k => z k + c * (y k - g)). set (h := fun k => nth (S k) ts 0 - nth k ts 0). set (lam := fun k => 1 - h k * (c / tau)).
  assert (EK : K = c * c * M) by (unfold c; field_simplify; [|trivial]; rewrite <- Rsqr_pow2; unfold Rsqr; rewrite HC; field; trivial).
  assert (ED : D = 2 * M * c) by (unfold c; field; trivial).
  assert (Hrec : forall k, (S k < length ts)%nat -> w (S k) = lam k * w k /\ y (S k) - g = lam k * (y k - g) + h k / tau * w k).
  { intros k Hk. destruct (HS k i Hk Hi) as [S1 S2]. destruct (HR k i ltac:(lia) Hi) as [R1 R2].
    destruct (HD k i ltac:(lia) Hi) as [C1 _]. destruct (HG k i ltac:(lia) Hi) as [G1 _]. destruct (HF k i ltac:(lia) Hi) as [F1 F2].
    rewrite F1 in F2. rewrite R1 in S1. rewrite R2, C1, G1, F2 in S2. unfold accel, target in S2. rewrite Hq in S2. fold K M D tau g in S1, S2.
    fold (y k) (y (S k)) (z k) (z (S k)) (h k) in *. unfold w, lam. rewrite S1, S2, ED, EK. split; field; repeat split; trivial. }
  destruct (H0 i Hi) as [Y0 Z0]. rewrite Hz0 in Z0.
  set (s := y0 - g).
  assert (Hlam : forall k, (S k < length ts)%nat -> 0 <= lam k <= 1 /\ 0 <= h k).
  { intros k Hk. destruct Hst as [_ Hst]. specialize (Hst k Hk). fold (h k) in Hst. unfold lam. rewrite Ec.
    assert (h k * (p / 2) <= b * (p / 2)) by (apply Rmult_le_compat_r; lra). assert (0 <= h k * (p / 2)) by (apply Rmult_le_pos; lra). lra. }
  (* invariants, multiplied by the sign of the initial distance *)
  assert (Inv : forall k, (k < length ts)%nat -> 0 <= (y k - g) * s /\ 0 <= w k / tau * s /\ w k / tau * s <= c / tau * ((y k - g) * s)).
  { induction k as [|k IH]; intros Hk.
    - assert (Ey : y 0%nat = y0) by exact Y0. assert (Ez : z 0%nat = 0) by exact Z0. unfold w. rewrite Ez, Ey. fold s. pose proof (Rle_0_sqr s). unfold Rsqr in *.
      assert (0 <= c / tau * (s * s)) by (apply Rmult_le_pos; lra).
      replace ((0 + c * s) / tau * s) with (c / tau * (s * s)) by (field; trivial). lra.
    - destruct (IH ltac:(lia)) as (I1 & I2 & I3). destruct (Hrec k Hk) as [E1 E2]. destruct (Hlam k Hk) as [[L0 L1] L2].
      rewrite E2, E1. set (e := (y k - g) * s) in *. set (v := w k / tau * s) in *.
      replace ((lam k * (y k - g) + h k / tau * w k) * s) with (lam k * e + h k * v) by (unfold e, v; field; trivial).
      replace (lam k * w k / tau * s) with (lam k * v) by (unfold v; field; trivial).
      assert (A1 : 0 <= lam k * e) by now apply Rmult_le_pos. assert (A2 : 0 <= h k * v) by now apply Rmult_le_pos.
      assert (A3 : 0 <= lam k * v) by now apply Rmult_le_pos. split; [lra|]. split; [trivial|].
      assert (Q0 : 0 <= c / tau) by lra. rewrite Rmult_plus_distr_l.
      assert (A4 : lam k * v <= lam k * (c / tau * e)) by now apply Rmult_le_compat_l.
      assert (A5 : 0 <= c / tau * (h k * v)) by now apply Rmult_le_pos. lra. }
  split.
  - intros k Hk. apply (Inv k Hk).
  - intros k Hk. destruct (Inv k ltac:(lia)) as (I1 & I2 & I3). destruct (Inv (S k) Hk) as (J1 & _ & _). fold (y k) (y (S k)).
    destruct (Req_dec s 0) as [Es|Es].
    + (* already there *)
      assert (Hz : forall j, (j < length ts)%nat -> y j - g = 0 /\ w j = 0).
      { induction j as [|j IH]; intros Hj.
        - assert (Ey : y 0%nat = y0) by exact Y0. assert (Ez : z 0%nat = 0) by exact Z0. unfold w. rewrite Ez, Ey. fold s. rewrite Es. split; ring.
        - destruct (IH ltac:(lia)) as [Z1 Z2]. destruct (Hrec j Hj) as [-> ->]. rewrite Z1, Z2. split; ring. }
      rewrite (proj1 (Hz k ltac:(lia))), (proj1 (Hz (S k) Hk)). lra.
    + assert (Hle : (y (S k) - g) * s <= (y k - g) * s).
      { destruct (Hrec k Hk) as [_ E2]. rewrite E2. destruct (Hlam k Hk) as [_ L2].
        set (e := (y k - g) * s) in *. set (v := w k / tau * s) in *.
        replace ((lam k * (y k - g) + h k / tau * w k) * s) with (lam k * e + h k * v) by (unfold e, v; field; trivial).
        unfold lam. assert (h k * v <= h k * (c / tau * e)) by now apply Rmult_le_compat_l. nra. }
      assert (Hs : 0 < Rabs s) by now apply Rabs_pos_lt.
      apply (Rmult_le_reg_r (Rabs s)); [trivial|]. rewrite <- !Rabs_mult. rewrite !Rabs_pos_eq by trivial. exact Hle.
Qed.
End S.
