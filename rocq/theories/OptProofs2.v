(** Proofs about improvement by updates: convex combinations, norms, the bound for PI-BB, reach. *)
From Coq Require Import String.
From Verif Require Import Base BaseLemmas DynModel UpdatersModel UpdatersSpec UpdatersProofs UpdatersProofs2 UpdatersProofs3 UpdatersProofs4 UpdatersProofs5 OptModel OptSpec OptProofs.
Open Scope R_scope.

Lemma nth_map2_gen {A B C} (f : A -> B -> C) : forall la lb i da db dc, (i < length la)%nat -> (i < length lb)%nat ->
  nth i (map2 f la lb) dc = f (nth i la da) (nth i lb db).
Proof. induction la as [|a la IH]; intros [|b lb] [|i] da db dc H1 H2; cbn in *; try lia; [reflexivity|]. apply IH; lia. Qed.
Lemma length_map2_gen {A B C} (f : A -> B -> C) : forall la lb, length (map2 f la lb) = Nat.min (length la) (length lb).
Proof. induction la as [|a la IH]; intros [|b lb]; cbn; [reflexivity..|]. now rewrite IH. Qed.
Lemma between_length t x y n : length x = n -> length y = n -> length (between t x y) = n.
Proof. intros H1 H2. unfold between. rewrite length_map2_gen. lia. Qed.
Lemma between_nth t x y n j : length x = n -> length y = n -> (j < n)%nat -> nth j (between t x y) 0 = t * nth j x 0 + (1 - t) * nth j y 0.
Proof. intros H1 H2 Hj. unfold between. now rewrite (nth_map2_gen _ x y j 0 0 0) by lia. Qed.
Lemma sumn_zero_all k (w : nat -> R) : (forall i, (i < k)%nat -> 0 <= w i) -> sumn k w = 0 -> forall i, (i < k)%nat -> w i = 0.
Proof.
  induction k as [|k IH]; intros P E i Hi; [lia|]. cbn in E. pose proof (sumn_nonneg k w ltac:(intros; apply P; lia)). pose proof (P k ltac:(lia)).
  destruct (Nat.eq_dec i k) as [->|]; [lra|]. apply IH; [intros; apply P; lia|lra|lia].
Qed.

(** ** convex combinations stay in what is closed under combinations of two *)
Definition comb (n k : nat) (w : nat -> R) (x : nat -> list R) : list R :=
  map (fun j => sumn k (fun i => w i * nth j (x i) 0) / sumn k w) (seq 0 n).
Lemma comb_length n k w x : length (comb n k w x) = n.
Proof. unfold comb. now rewrite map_length, seq_length. Qed.
Lemma comb_nth n k w x j : (j < n)%nat -> nth j (comb n k w x) 0 = sumn k (fun i => w i * nth j (x i) 0) / sumn k w.
Proof. intros H. unfold comb. now rewrite nth_map_seq. Qed.
Lemma comb_in n (P : list R -> R -> Prop) :
  (forall x y r s t, length x = n -> length y = n -> 0 <= t <= 1 -> P x r -> P y s -> P (between t x y) (t * r + (1 - t) * s)) ->
  forall k (w : nat -> R) (x : nat -> list R) (r : nat -> R), (forall i, (i < k)%nat -> 0 <= w i) -> (forall i, (i < k)%nat -> length (x i) = n) ->
  0 < sumn k w -> (forall i, (i < k)%nat -> 0 < w i -> P (x i) (r i)) -> P (comb n k w x) (sumn k (fun i => w i * r i) / sumn k w).
Proof.
  intros C. induction k as [|k IH]; intros w x r W L Z H; [cbn in Z; lra|].
  pose proof (sumn_nonneg k w ltac:(intros; apply W; lia)) as Hk. pose proof (W k ltac:(lia)) as Wk. cbn [sumn] in Z.
  destruct (Req_EM_T (w k) 0) as [E0|N0].
  - assert (E1 : comb n (S k) w x = comb n k w x).
    { unfold comb. apply map_ext. intros j. cbn [sumn]. rewrite E0. f_equal; ring. }
    rewrite E1. replace (sumn (S k) _ / sumn (S k) w) with (sumn k (fun i => w i * r i) / sumn k w) by (cbn [sumn]; rewrite E0; f_equal; ring).
    apply IH; [intros; apply W; lia|intros; apply L; lia|lra|intros; apply H; [lia|trivial]].
  - destruct (Req_EM_T (sumn k w) 0) as [E1|N1].
    + pose proof (sumn_zero_all k w ltac:(intros; apply W; lia) E1) as A.
      assert (Zr : forall g : nat -> R, sumn k (fun i => w i * g i) = 0) by (intros g; apply sumn_zero; intros i Hi; rewrite A by trivial; ring).
      replace (comb n (S k) w x) with (x k).
      * replace (sumn (S k) _ / sumn (S k) w) with (r k); [apply H; [lia|lra]|]. cbn [sumn]. rewrite Zr, E1. field. lra.
      * apply (nth_ext _ _ 0 0); [rewrite comb_length; apply L; lia|]. intros j Hj. rewrite L in Hj by lia. rewrite comb_nth by trivial. cbn [sumn].
        rewrite (Zr (fun i => nth j (x i) 0)), E1. field. lra.
    + set (W1 := sumn k w) in *. assert (0 < W1) by lra. assert (0 < w k) by lra.
      assert (Ht : 0 <= W1 / (W1 + w k) <= 1).
      { split; [apply Rlt_le, Rdiv_lt_0_compat; lra|]. apply (Rmult_le_reg_r (W1 + w k)); [lra|]. unfold Rdiv. rewrite Rmult_assoc, Rinv_l by lra. lra. }
      pose proof (C (comb n k w x) (x k) (sumn k (fun i => w i * r i) / W1) (r k) (W1 / (W1 + w k)) (comb_length _ _ _ _) (L k ltac:(lia)) Ht) as G.
      replace (comb n (S k) w x) with (between (W1 / (W1 + w k)) (comb n k w x) (x k)).
      * replace (sumn (S k) _ / sumn (S k) w) with (W1 / (W1 + w k) * (sumn k (fun i => w i * r i) / W1) + (1 - W1 / (W1 + w k)) * r k).
        { apply G; [apply IH; [intros; apply W; lia|intros; apply L; lia|assumption|intros; apply H; [lia|trivial]]|apply H; [lia|trivial]]. }
        cbn [sumn]. fold W1. field. split; lra.
      * apply (nth_ext _ _ 0 0); [rewrite comb_length; apply between_length; [apply comb_length|apply L; lia]|].
        intros j Hj. rewrite (between_length _ _ _ n) in Hj by (apply comb_length || (apply L; lia)).
        rewrite (between_nth _ _ _ n) by (trivial; apply comb_length || (apply L; lia)). rewrite !comb_nth by trivial. cbn [sumn]. fold W1. field. split; lra.
Qed.

(** ** the mean after an update *)
Section U.
Variable argsort : list R -> list nat.
Hypothesis Hsort : argsort_ok argsort.
Lemma row_length s i : mat_wf s -> (i < nrows s)%nat -> length (nth i (mrows s) []) = mcols s.
Proof. intros W Hi. unfold mat_wf in W. rewrite Forall_forall in W. apply W, nth_In. exact Hi. Qed.
Lemma mean_comb u d s c d' w : mat_wf s -> update_distribution argsort u d s c = Ok (d', w) ->
  sumn (nrows s) (fun i => nth i w 0) = 1 /\ (forall i, (i < nrows s)%nat -> 0 <= nth i w 0) /\
  d_mean d' = comb (mcols s) (nrows s) (fun i => nth i w 0) (fun i => nth i (mrows s) []).
Proof.
  intros W E. destruct (update_mean_formula argsort Hsort u d s c d' w E) as ((Lw & Pw & Sw) & _ & Ld & F).
  rewrite rsum_nth, Lw in Sw. split; [exact Sw|]. split; [intros i Hi; apply Pw, nth_In; lia|].
  apply (nth_ext _ _ 0 0); [now rewrite comb_length|]. intros j Hj. rewrite Ld in Hj. rewrite comb_nth, F by trivial. rewrite Sw. unfold mget. field.
Qed.
Lemma jensen u d s c d' w f : mat_wf s -> convex (mcols s) f -> update_distribution argsort u d s c = Ok (d', w) ->
  f (d_mean d') <= weighted w (map f (mrows s)).
Proof.
  intros W C E. destruct (mean_comb u d s c d' w W E) as (Sw & Pw & ->).
  pose proof (comb_in (mcols s) (fun x r => f x <= r)) as G.
  specialize (G ltac:(intros x y r q t L1 L2 Ht H1 H2; pose proof (C x y t L1 L2 Ht); nra) (nrows s) (fun i => nth i w 0) (fun i => nth i (mrows s) [])
    (fun i => f (nth i (mrows s) [])) Pw ltac:(intros; now apply row_length) ltac:(rewrite Sw; lra) ltac:(intros; lra)).
  cbv beta in G. rewrite Sw in G. unfold weighted. rewrite map_length. fold (nrows s).
  rewrite (sumn_ext (nrows s) _ (fun i => nth i w 0 * f (nth i (mrows s) []))); [lra|].
  intros i Hi. rewrite (nth_indep (map f (mrows s)) 0 (f [])) by (rewrite map_length; exact Hi). now rewrite map_nth.
Qed.
Lemma level u d s c d' w f b : mat_wf s -> convex_levels (mcols s) f -> update_distribution argsort u d s c = Ok (d', w) ->
  (forall i, (i < nrows s)%nat -> 0 < nth i w 0 -> f (nth i (mrows s) []) <= b) -> f (d_mean d') <= b.
Proof.
  intros W C E H. destruct (mean_comb u d s c d' w W E) as (Sw & Pw & ->).
  refine (comb_in (mcols s) (fun x _ => f x <= b) _ _ _ _ (fun _ => 0) Pw _ _ H).
  - intros x y r q t L1 L2 Ht H1 H2. now apply C.
  - intros; now apply row_length.
  - rewrite Sw. lra.
Qed.
(** ** how far the mean can move *)
Definition has (j : nat) (C : mat) : Prop := (j < length (mrows C))%nat /\ (j < length (nth j (mrows C) []))%nat.
Lemma mscal_get k C j : has j C -> has j (mscal k C) /\ mget (mscal k C) j j = k * mget C j j.
Proof.
  intros [H1 H2]. unfold has, mget, mscal. cbn [mrows]. rewrite map_length.
  assert (E : nth j (map (map (fun x => k * x)) (mrows C)) [] = map (fun x => k * x) (nth j (mrows C) [])).
  { rewrite (nth_indep _ [] (map (fun x => k * x) [])) by now rewrite map_length. apply map_nth. }
  rewrite E, map_length. split; [now split|]. rewrite (nth_indep _ 0 (k * 0)) by now rewrite map_length. apply (map_nth (fun x => k * x)).
Qed.
Lemma reach m e dc j K : 0 <= dc < 1 -> 0 <= K -> forall hist d d', has j (d_covar d) ->
  explores argsort (UDecay m e dc) j K d hist -> update_history argsort (UDecay m e dc) d hist = Ok d' ->
  Rabs (nth j (d_mean d') 0 - nth j (d_mean d) 0) <= K * sqrt (mget (d_covar d) j j) * (1 - dc ^ length hist) / (1 - dc).
Proof.
  intros Hd HK. induction hist as [|[s c] hist IH]; intros d d' Hc X E.
  - cbn in E. injection E as <-. rewrite Rminus_eq_0. cbn. rewrite Rabs_R0, Rminus_eq_0. unfold Rdiv. rewrite Rmult_0_r, Rmult_0_l. lra.
  - cbn [update_history] in E. destruct (update_distribution argsort (UDecay m e dc) d s c) as [[d1 w]|] eqn:E1; [|discriminate]. cbn [bind fst] in E.
    cbn [explores] in X. destruct X as (Hjs & Xs & X). specialize (X d1 w E1). set (sd := sqrt (mget (d_covar d) j j)) in *.
    assert (B : Rabs (nth j (d_mean d1) 0 - nth j (d_mean d) 0) <= K * sd).
    { set (a := nth j (d_mean d) 0) in *. assert (a - K * sd <= nth j (d_mean d1) 0 <= a + K * sd); [|apply Rabs_le; lra].
      apply (update_mean_in_box argsort Hsort _ _ _ _ _ _ j (a - K * sd) (a + K * sd) E1 Hjs). intros i Hi. specialize (Xs i Hi). revert Xs. fold a. unfold Rabs. destruct (Rcase_abs _); lra. }
    assert (Ec : d_covar d1 = mscal (dc * dc) (d_covar d)).
    { cbn [update_distribution] in E1. unfold update_covar_decay in E1. destruct (costs_to_weights argsort c m e); [|discriminate]. cbn [bind] in E1.
      destruct (average_rows s _); [|discriminate]. cbn [bind] in E1. now injection E1 as <- _. }
    destruct (mscal_get (dc * dc) (d_covar d) j Hc) as [Hc1 G1]. rewrite <- Ec in Hc1, G1.
    pose proof (IH d1 d' Hc1 X E) as G. rewrite G1 in G.
    assert (Es : sqrt (dc * dc * mget (d_covar d) j j) = dc * sd).
    { rewrite sqrt_mult_alt by nra. rewrite sqrt_square by lra. reflexivity. }
    rewrite Es in G. cbn [length pow].
    replace (nth j (d_mean d') 0 - nth j (d_mean d) 0) with ((nth j (d_mean d') 0 - nth j (d_mean d1) 0) + (nth j (d_mean d1) 0 - nth j (d_mean d) 0)) by ring.
    eapply Rle_trans; [apply Rabs_triang|]. eapply Rle_trans; [apply Rplus_le_compat; [exact G|exact B]|].
    apply Req_le. field. lra.
Qed.
End U.

(** ** norms *)
Lemma cauchy_schwarz n (a b : nat -> R) : (sumn n (fun i => a i * b i)) ^ 2 <= sumn n (fun i => a i * a i) * sumn n (fun i => b i * b i).
Proof.
  induction n as [|n IH]; [cbn; lra|]. cbn [sumn].
  pose proof (sumn_nonneg n (fun i => a i * a i) ltac:(intros; nra)) as PA. pose proof (sumn_nonneg n (fun i => b i * b i) ltac:(intros; nra)) as PB.
  set (S1 := sumn n (fun i => a i * b i)) in *. set (A := sumn n (fun i => a i * a i)) in *. set (B := sumn n (fun i => b i * b i)) in *.
  clearbody S1 A B. set (x := a n). set (y := b n). clearbody x y.
  assert (H : 2 * (S1 * (x * y)) <= A * (y * y) + B * (x * x)).
  { apply Rsqr_incr_0_var; [|nra]. unfold Rsqr.
    assert (0 <= (A * (y * y) - B * (x * x)) ^ 2) by apply pow2_ge_0. assert (0 <= (x * y) * (x * y)) by nra.
    assert (S1 * S1 * ((x * y) * (x * y)) <= A * B * ((x * y) * (x * y))) by (apply Rmult_le_compat_r; [assumption|lra]). nra. }
  nra.
Qed.
Lemma norm_sumn v : norm v = sqrt (sumn (length v) (fun i => nth i v 0 * nth i v 0)).
Proof.
  unfold norm. rewrite rsum_nth, map_length. f_equal. apply sumn_ext. intros i Hi.
  rewrite (nth_indep _ 0 (0 * 0)) by now rewrite map_length. apply (map_nth (fun x => x * x)).
Qed.
Lemma norm_pos v : 0 <= norm v.
Proof. apply sqrt_pos. Qed.
Lemma norm_between n x y t : length x = n -> length y = n -> 0 <= t <= 1 -> norm (between t x y) <= t * norm x + (1 - t) * norm y.
Proof.
  intros Lx Ly Ht. rewrite !norm_sumn, (between_length _ _ _ n) by trivial. rewrite Lx, Ly.
  set (A := sumn n (fun i => nth i x 0 * nth i x 0)). set (B := sumn n (fun i => nth i y 0 * nth i y 0)). set (C := sumn n (fun i => nth i x 0 * nth i y 0)).
  assert (PA : 0 <= A) by (apply sumn_nonneg; intros; nra). assert (PB : 0 <= B) by (apply sumn_nonneg; intros; nra).
  assert (E : sumn n (fun i => nth i (between t x y) 0 * nth i (between t x y) 0) = t * t * A + 2 * (t * (1 - t)) * C + (1 - t) * (1 - t) * B).
  { unfold A, B, C. rewrite <- !sumn_scal, <- !sumn_plus. apply sumn_ext. intros i Hi. rewrite !(between_nth t x y n) by trivial. ring. }
  rewrite E. pose proof (cauchy_schwarz n (fun i => nth i x 0) (fun i => nth i y 0)) as CS. cbv beta in CS. fold A B C in CS.
  set (a := sqrt A). set (b := sqrt B). assert (Ha : a * a = A) by now apply sqrt_sqrt. assert (Hb : b * b = B) by now apply sqrt_sqrt.
  assert (Pa : 0 <= a) by apply sqrt_pos. assert (Pb : 0 <= b) by apply sqrt_pos.
  assert (HC : C <= a * b). { apply Rsqr_incr_0_var; [|nra]. unfold Rsqr. rewrite <- Ha, <- Hb in CS. nra. }
  assert (P : 0 <= t * a + (1 - t) * b) by nra.
  rewrite <- (sqrt_square (t * a + (1 - t) * b)) by exact P. apply sqrt_le_1_alt. rewrite <- Ha, <- Hb.
  assert (0 <= t * (1 - t)) by nra. nra.
Qed.
Lemma vop_minus x p : length x = length p -> vop Rminus x p = Ok (map2 Rminus x p).
Proof. intros H. unfold vop. now rewrite H, Nat.eqb_refl. Qed.
Definition distance (p x : list R) : R := norm (map2 Rminus x p).
Lemma distance_convex p : convex (length p) (distance p).
Proof.
  intros x y t Lx Ly Ht. unfold distance.
  replace (map2 Rminus (between t x y) p) with (between t (map2 Rminus x p) (map2 Rminus y p)).
  - apply (norm_between (length p)); trivial; rewrite length_map2_gen; lia.
  - apply (nth_ext _ _ 0 0).
    + rewrite (between_length _ _ _ (length p)); rewrite ?length_map2_gen; [|lia|lia]. rewrite (between_length _ _ _ (length p)) by trivial. lia.
    + intros j Hj. rewrite (between_length _ _ _ (length p)) in Hj by (rewrite length_map2_gen; lia).
      rewrite (between_nth _ _ _ (length p)) by (trivial; rewrite length_map2_gen; lia).
      rewrite !(nth_map2_gen Rminus _ _ j 0 0 0) by (trivial; rewrite ?(between_length _ _ _ (length p)); trivial; lia).
      rewrite (between_nth _ _ _ (length p)) by trivial. ring.
Qed.
Lemma regularized_convex p k : 0 <= k -> convex (length p) (fun x => distance p x + k * norm x).
Proof.
  intros Hk x y t Lx Ly Ht. pose proof (distance_convex p x y t Lx Ly Ht). pose proof (norm_between (length p) x y t Lx Ly Ht). nra.
Qed.

(** ** PI-BB: how much worse than the best *)
Lemma s_exp s : s * exp (- s) <= / exp 1.
Proof.
  pose proof (exp_ineq1_le (s - 1)) as H. pose proof (exp_pos (- s)) as P. pose proof (exp_pos 1) as P1.
  apply (Rmult_le_reg_r (exp 1)); [exact P1|]. rewrite Rinv_l by lra.
  assert (E : exp (- s) * exp 1 * exp (s - 1) = 1) by (rewrite <- !exp_plus, <- exp_0; f_equal; ring).
  assert (0 < exp (- s) * exp 1) by nra. nra.
Qed.
Lemma sumn_but n b K : (b < n)%nat -> sumn n (fun i => if Nat.eqb i b then 0 else K) = (INR n - 1) * K.
Proof.
  induction n as [|n IH]; intros H; [lia|]. rewrite S_INR. cbn [sumn]. destruct (Nat.eqb_spec n b) as [->|N].
  - rewrite (sumn_ext b _ (fun _ => K)); [rewrite sumn_const; ring|]. intros i Hi. destruct (Nat.eqb_spec i b); [lia|reflexivity].
  - rewrite IH by lia. ring.
Qed.
Lemma pibb_bound argsort costs cs m e w b t : totals costs cs -> ~ rank_method m -> 0 < elit_R e -> costs_to_weights argsort costs m e = Ok w ->
  (b < length cs)%nat -> (t < length cs)%nat -> (forall i, (i < length cs)%nat -> nth b cs 0 <= nth i cs 0 <= nth t cs 0) ->
  weighted w cs <= nth b cs 0 + (nth t cs 0 - nth b cs 0) * (INR (length cs) - 1) / (elit_R e * exp 1).
Proof.
  intros T Rm He E Hb Ht Hbt. pose proof (totals_length _ _ T) as L. assert (N : costs <> []) by (intros ->; cbn in L; lia).
  rewrite (not_rank_pibb argsort costs cs m e Rm T N) in E. injection E as <-. set (h := elit_R e) in *.
  assert (Emn : lmin cs = nth b cs 0).
  { destruct cs as [|x l]; [cbn in Hb; lia|]. unfold lmin. apply rmin_list_unique; [now apply nth_In|]. intros y Hy. apply (In_nth _ _ 0) in Hy. destruct Hy as (i & Hi & <-). now apply Hbt. }
  assert (Emx : lmax cs = nth t cs 0).
  { destruct cs as [|x l]; [cbn in Hb; lia|]. unfold lmax. apply rmax_list_unique; [now apply nth_In|]. intros y Hy. apply (In_nth _ _ 0) in Hy. destruct Hy as (i & Hi & <-). now apply Hbt. }
  pose proof (pibb_simplex h cs ltac:(destruct cs; [cbn in Hb; lia|discriminate])) as (Lw & Pw & Sw). rewrite rsum_nth, Lw in Sw.
  set (lo := nth b cs 0) in *. set (rg := nth t cs 0 - lo) in *. set (w := map (pibb_w h cs) cs) in *.
  assert (Hrg : 0 <= rg) by (unfold rg; specialize (Hbt t Ht); lra). pose proof (exp_pos 1) as P1.
  set (Z := rsum (map (pibb_weight h lo rg) cs)).
  assert (Ew : forall i, (i < length cs)%nat -> nth i w 0 = exp (- h * (nth i cs 0 - lo) / rg) / Z).
  { intros i Hi. unfold w. rewrite (nth_indep _ 0 (pibb_w h cs 0)) by (rewrite map_length; exact Hi). rewrite (map_nth (pibb_w h cs)). unfold pibb_w. rewrite Emn, Emx. reflexivity. }
  assert (HZ : 1 <= Z).
  { unfold Z. rewrite rsum_nth, map_length. apply Rle_trans with (sumn (length cs) (fun i => if Nat.eqb i b then 1 else 0)).
    - apply Req_le. symmetry. rewrite (sumn_ext _ _ (fun i => 1 - (if Nat.eqb i b then 0 else 1))) by (intros i _; destruct (Nat.eqb i b); ring).
      rewrite sumn_minus, sumn_const, sumn_but by exact Hb. ring.
    - apply sumn_le. intros i Hi. rewrite (nth_indep _ 0 (pibb_weight h lo rg 0)) by (rewrite map_length; exact Hi). rewrite (map_nth (pibb_weight h lo rg)). unfold pibb_weight.
      destruct (Nat.eqb_spec i b) as [->|_]; [|apply Rlt_le, exp_pos]. fold lo. rewrite Rminus_eq_0. unfold Rdiv. rewrite Rmult_0_r, Rmult_0_l, exp_0. lra. }
  assert (Ex : weighted w cs = lo + sumn (length cs) (fun i => nth i w 0 * (nth i cs 0 - lo))).
  { unfold weighted. rewrite (sumn_ext _ (fun i => nth i w 0 * (nth i cs 0 - lo)) (fun i => nth i w 0 * nth i cs 0 - nth i w 0 * lo)) by (intros; ring).
    rewrite sumn_minus, sumn_scal_r, Sw. ring. }
  rewrite Ex. apply Rplus_le_compat_l.
  replace (rg * (INR (length cs) - 1) / (h * exp 1)) with ((INR (length cs) - 1) * (rg / (h * exp 1))) by (unfold Rdiv; ring).
  rewrite <- (sumn_but (length cs) b) by exact Hb. apply sumn_le. intros i Hi. destruct (Nat.eqb_spec i b) as [->|_]; [fold lo; rewrite Rminus_eq_0; lra|].
  pose proof (Hbt i Hi) as [H1 H2]. rewrite Ew by exact Hi. destruct (Req_EM_T rg 0) as [R0|R0].
  - assert (nth i cs 0 - lo = 0) by (unfold rg in R0; lra). rewrite H, R0. unfold Rdiv. lra.
  - pose proof (s_exp (h * (nth i cs 0 - lo) / rg)) as Q. assert (Pr : 0 < rg) by lra.
    replace (- (h * (nth i cs 0 - lo) / rg)) with (- h * (nth i cs 0 - lo) / rg) in Q by (unfold Rdiv; ring).
    set (ex := exp (- h * (nth i cs 0 - lo) / rg)) in *. assert (Pe : 0 < ex) by apply exp_pos.
    assert (Q2 : (nth i cs 0 - lo) * ex <= rg / (h * exp 1)).
    { apply (Rmult_le_reg_r (h / rg)); [apply Rdiv_lt_0_compat; lra|]. replace (rg / (h * exp 1) * (h / rg)) with (/ exp 1) by (field; repeat split; lra).
      replace ((nth i cs 0 - lo) * ex * (h / rg)) with (h * (nth i cs 0 - lo) / rg * ex) by (field; lra). exact Q. }
    assert (Q3 : ex / Z <= ex). { apply (Rmult_le_reg_r Z); [lra|]. unfold Rdiv. rewrite Rmult_assoc, Rinv_l by lra. nra. }
    nra.
Qed.
