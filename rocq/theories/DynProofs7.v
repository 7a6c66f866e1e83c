(** Proofs: the statements about dynamical systems, assembled. *)
From Verif Require Import Base BaseLemmas DynModel DynSpec DynProofs DynProofs2 DynProofs3 DynProofs4 DynProofs5 DynProofs6.

Lemma exp_exact tau x0 attr alpha : tau <> 0 -> length attr = length x0 -> par_ok alpha (length x0) ->
  let s := Esys tau x0 attr alpha in
  exists X Xd, solves (e_diffeq s) (e_ana s) x0 X Xd /\
    forall d, (d < length x0)%nat -> 0 < par_val alpha d / tau ->
      tends_to (comp X d) (nth d attr 0) /\ approaches (comp X d) (nth d attr 0).
Proof.
  intros Ht Ha Hp s. exists (eX s), (eXd s). split; [now apply (e_solves s)|].
  intros d Hd Hc. now apply (e_converges s d).
Qed.

Lemma sigmoid_exact tau x0 rate infl : par_ok rate (length x0) -> par_ok infl (length x0) ->
  (forall d, (d < length x0)%nat -> nth d x0 0 <> 0) ->
  let s := Ssys tau x0 rate infl in
  exists X Xd K, solves (s_diffeq s) (s_ana s) x0 X Xd /\
    length K = length x0 /\ s_diffeq s K = Ok (zeros (length x0)) /\
    forall d, (d < length x0)%nat ->
      nth d K 0 <> 0 /\
      comp X d (tau * par_val infl d) = nth d K 0 / 2 /\
      (forall t, Rabs (comp Xd d t) <= Rabs (comp Xd d (tau * par_val infl d))) /\
      (0 < nth d x0 0 -> forall t, 0 < comp X d t < nth d K 0) /\
      (0 < par_val rate d -> tends_to (comp X d) (nth d K 0)) /\
      (par_val rate d < 0 -> tends_to (comp X d) 0).
Proof.
  intros Hr Hq H0 s. exists (sX s), (sXd s), (sKs s).
  split; [now apply (s_solves s)|]. split; [apply (sKs_length s)|]. split; [now apply (sK_equilibrium s)|].
  intros d Hd. repeat split.
  - unfold sKs. rewrite nth_map_seq by exact Hd. apply sK_nonzero. now apply H0.
  - now apply (s_half s d).
  - intros t. now apply (s_max_rate s).
  - now apply (s_between s).
  - now apply (s_between s).
  - now apply (s_grows s).
  - now apply (s_shrinks s).
Qed.

Lemma richards_exact s : h_tau s <> 0 -> h_left s = None -> richards_ok s ->
  (forall d, (d < length (h_init s))%nat -> nth d (h_init s) 0 <> par_val (h_right s) d) ->
  exists X Xd, solves (r_diffeq s) (r_ana s) (h_init s) X Xd /\
    forall d, (d < length (h_init s))%nat ->
      (0 < par_val (h_alpha s) d / h_tau s ->
         tends_to (comp X d) (par_val (h_right s) d) /\ approaches (comp X d) (par_val (h_right s) d)) /\
      (forall t, Rabs (comp Xd d t) <= Rabs (comp Xd d (Rmax 0 (h_tau s * par_val (h_infl s) d)))).
Proof.
  intros Ht Hl Hok Hne.
  set (al := par_val (h_alpha s)). set (v := val_v s). set (a := val_a s). set (k := par_val (h_right s)).
  set (x0 := fun i => nth i (h_init s) 0).
  assert (Hv : forall i, (i < length (h_init s))%nat -> 0 < v i).
  { intros i Hi. unfold v, val_v. rewrite Hl. eapply Rlt_le_trans; [|apply Rmax_l]. lra. }
  assert (Hin : forall i, (i < length (h_init s))%nat -> 0 < (x0 i - a i) / (k i - a i) <= 1).
  { intros i Hi. unfold a, val_a. rewrite Hl. apply left_in; [exact (Hv i Hi)|]. now apply Hne. }
  assert (Hat : forall i, (i < length (h_init s))%nat -> r_at s i = Ok (al i, v i, a i, k i, x0 i)).
  { intros i Hi. now apply r_at_ok. }
  exists (rsX s al v a k x0), (rsXd s al v a k x0). split.
  - apply r_solves; trivial. 
  - intros d Hd. split.
    + intros Hc. now apply r_converges.
    + intros t. apply r_max_rate; trivial. unfold a, val_a. rewrite Hl. apply left_infl; first [now apply Hv|now apply Hne].
Qed.

Lemma richards_exact_left s p : h_tau s <> 0 -> h_left s = Some p -> richards_ok s ->
  (forall d, (d < length (h_init s))%nat -> 0 < par_val (h_v s) d) ->
  (forall d, (d < length (h_init s))%nat ->
     0 < (nth d (h_init s) 0 - par_val p d) / (par_val (h_right s) d - par_val p d) <= 1) ->
  exists X Xd, solves (r_diffeq s) (r_ana s) (h_init s) X Xd /\
    forall d, (d < length (h_init s))%nat -> 0 < par_val (h_alpha s) d / h_tau s ->
      tends_to (comp X d) (par_val (h_right s) d) /\ approaches (comp X d) (par_val (h_right s) d).
Proof.
  intros Ht Hl Hok Hv0 Hin0.
  set (al := par_val (h_alpha s)). set (v := val_v s). set (a := val_a s). set (k := par_val (h_right s)).
  set (x0 := fun i => nth i (h_init s) 0).
  assert (Hv : forall i, (i < length (h_init s))%nat -> 0 < v i).
  { intros i Hi. unfold v, val_v. rewrite Hl. now apply Hv0. }
  assert (Hin : forall i, (i < length (h_init s))%nat -> 0 < (x0 i - a i) / (k i - a i) <= 1).
  { intros i Hi. unfold a, val_a. rewrite Hl. now apply Hin0. }
  assert (Hat : forall i, (i < length (h_init s))%nat -> r_at s i = Ok (al i, v i, a i, k i, x0 i)).
  { intros i Hi. now apply r_at_ok. }
  exists (rsX s al v a k x0), (rsXd s al v a k x0). split.
  - apply r_solves; trivial.
  - intros d Hd Hc. now apply r_converges.
Qed.

(** if the initial and attractor state agree in a dimension nothing is returned *)
Lemma richards_equal_nan tau x0 infl alpha v ts : tau <> 0 ->
  r_diffeq (Rsys tau [x0] (PScal x0) (PScal infl) (PScal alpha) (PScal v) None) [x0] = Err NonFinite /\
  (ts <> [] -> r_ana (Rsys tau [x0] (PScal x0) (PScal infl) (PScal alpha) (PScal v) None) ts = Err NonFinite).
Proof.
  intros Ht.
  assert (V : 0 < Rmax 0.5 v) by (eapply Rlt_le_trans; [|apply Rmax_l]; lra).
  assert (E : rLeft tau infl alpha (Rmax 0.5 v) x0 x0 = x0).
  { unfold rLeft. pose proof (rZ_gt1 tau infl alpha (Rmax 0.5 v) V). field. lra. }
  assert (A : r_at (Rsys tau [x0] (PScal x0) (PScal infl) (PScal alpha) (PScal v) None) 0
              = Ok (alpha, Rmax 0.5 v, x0, x0, x0)).
  { unfold r_at; cbn. rewrite r_left_at_ok by trivial. now rewrite E. }
  split.
  - unfold r_diffeq. cbn [h_init length Nat.eqb seq mapM]. rewrite A. cbn.
    destruct (Req_EM_T (x0 - x0) 0); [reflexivity|lra].
  - intros Hts. destruct ts as [|t ts]; [contradiction|].
    unfold r_ana. cbn [h_init length Nat.eqb seq mapM]. rewrite A. cbn. unfold r_ana_at.
    destruct (Req_EM_T (x0 - x0) 0); [reflexivity|lra].
Qed.

(** ** spring-damper systems *)
Lemma spring_exact s : let n := d_dimy s in
  0 < d_tau s -> length (d_init s) = (2 * n)%nat -> length (d_attr s) = n ->
  par_ok (d_damp s) n -> par_ok (d_spring s) n -> par_ok (d_mass s) n ->
  (forall i, (i < n)%nat -> 0 < par_val (d_mass s) i /\ 0 < par_val (d_spring s) i /\
     par_val (d_damp s) i = 2 * sqrt (par_val (d_mass s) i * par_val (d_spring s) i)) ->
  (d_tau s = 1 \/ forall i, (i < n)%nat -> nth (n + i) (d_init s) 0 = 0) ->
  exists X Xd, solves (d_diffeq s) (d_ana s) (d_init s) X Xd /\
    forall i, (i < n)%nat ->
      (forall t, comp X (n + i) t = d_tau s * comp Xd i t) /\
      tends_to (comp X i) (nth i (d_attr s) 0) /\
      (nth (n + i) (d_init s) 0 = 0 -> approaches (comp X i) (nth i (d_attr s) 0)).
Proof.
  intros n Ht Hi Ha Hd Hk Hm Hc Hr.
  assert (HM : forall i, (i < d_dimy s)%nat -> 0 < par_val (d_mass s) i) by (intros; now apply Hc).
  assert (HK : forall i, (i < d_dimy s)%nat -> 0 <= par_val (d_spring s) i) by (intros; left; now apply Hc).
  exists (dX s), (dXd s). split.
  - apply d_solves; trivial; [lra|]. intros; now apply Hc.
  - intros i Hlt. split; [|split].
    + intros t. unfold comp, dX, dXd, n.
      rewrite app_nth2 by (rewrite map_length, seq_length; lia).
      rewrite app_nth1 by (rewrite map_length, seq_length; exact Hlt).
      rewrite map_length, seq_length. replace (d_dimy s + i - d_dimy s)%nat with i by lia.
      rewrite !nth_map_seq by exact Hlt. ring.
    + apply d_tends; trivial; first [lra|now apply Hc].
    + intros Hz. apply d_approaches; trivial; first [lra|now apply Hc].
Qed.

Lemma pad_length n y : (length y <= n)%nat -> length (pad n y) = n.
Proof. intros; unfold pad. rewrite app_length, repeat_length. lia. Qed.
Lemma nth_repeat0 n i : nth i (repeat 0 n) 0 = 0.
Proof. revert i; induction n; intros [|i]; cbn; trivial. Qed.
Lemma nth_pad n y i : (length y <= i)%nat -> nth i (pad n y) 0 = 0.
Proof. intros; unfold pad. rewrite app_nth2 by lia. apply nth_repeat0. Qed.

Lemma spring_default_exact tau y0 attr d : 0 < tau -> length attr = length y0 ->
  par_ok d (length y0) -> (forall i, (i < length y0)%nat -> 0 < par_val d i) ->
  let s := new_spring tau y0 attr d None (PScal 1) in
  let n := length y0 in
  exists X Xd, solves (d_diffeq s) (d_ana s) (pad (2 * n) y0) X Xd /\
    forall i, (i < n)%nat ->
      (forall t, comp X (n + i) t = tau * comp Xd i t) /\
      tends_to (comp X i) (nth i attr 0) /\ approaches (comp X i) (nth i attr 0).
Proof.
  intros Ht Ha Hp Hd s n.
  destruct (spring_exact s) as (X & Xd & H1 & H2); cbn; trivial.
  - apply pad_length. unfold n; lia.
  - now apply par_ok_pmap.
  - intros i Hi. split; [lra|]. rewrite (par_val_pmap _ _ (length y0)) by trivial. pose proof (Hd i Hi) as Hdi.
    split; [nra|]. replace (1 * (par_val d i * par_val d i / 4)) with ((par_val d i / 2) * (par_val d i / 2)) by field.
    rewrite sqrt_square by lra. field.
  - right. intros i Hi. apply nth_pad. lia.
  - exists X, Xd. split; [exact H1|]. intros i Hi. destruct (H2 i Hi) as (A & B & C). split; [exact A|]. split; [exact B|].
    apply C. cbn. apply nth_pad. lia.
Qed.

(** the closed form is wrong when the initial velocity is not zero and tau is not 1 *)
Lemma spring_moving_refuted tau y z g k m d : 0 < tau -> tau <> 1 -> z <> 0 -> 0 < m -> 0 <= k ->
  exists xd y', d_ana (Dsys tau [y; z] [g] (PScal d) (PScal k) (PScal m) 1) [0] = Ok ([[y; y']], [xd]) /\ y' <> z.
Proof.
  intros Ht H1 Hz Hm Hk. set (s := Dsys tau [y; z] [g] (PScal d) (PScal k) (PScal m) 1).
  assert (E : d_ana s [0] = Ok (map (dX s) [0], map (dXd s) [0])).
  { apply d_ana_ok; cbn; trivial; try lra; intros; trivial. }
  rewrite E. cbn [map]. unfold dX. cbn [d_dimy s seq map app].
  exists (dXd s 0), (z * tau). split.
  - replace (dy s 0 0) with y. replace (dyd s 0 0 * d_tau s) with (z * tau); [reflexivity|].
    + unfold dyd, dB, dZ; cbn. rewrite !Rmult_0_r, exp_0. ring.
    + unfold dy, dA, dG; cbn. rewrite !Rmult_0_r, exp_0. ring.
  - intros E'. assert (z * (tau - 1) = 0) by lra. apply Rmult_integral in H. lra.
Qed.

(** "CRITICALLY_DAMPED" is wrong when the mass is not 1 *)
Lemma spring_mass_refuted tau y g d m t : 0 < tau -> 0 < d -> 0 < m -> m <> 1 -> y <> g -> 0 < t ->
  let s := new_spring tau [y] [g] (PScal d) None (PScal m) in
  exists x xd, d_ana s [t] = Ok ([x], [xd]) /\ d_diffeq s x <> Ok xd.
Proof.
  intros Ht Hd Hm Hm1 Hyg Htt s.
  assert (Hk : 0 < d * d / 4) by nra.
  assert (E : d_ana s [t] = Ok (map (dX s) [t], map (dXd s) [t])).
  { apply d_ana_ok; cbn; trivial; try lra; intros; trivial; lra. }
  rewrite E. cbn [map]. exists (dX s t), (dXd s t). split; [reflexivity|].
  unfold dX. rewrite d_diffeq_ok by (cbn; intros; first [reflexivity|exact I|assumption|lra]). cbn. intros E'.
  injection E' as E1 E2. apply Rminus_diag_eq in E2.
  assert (Res := d_residual s).
  specialize (Res ltac:(cbn; lra) ltac:(cbn; intros; lra) ltac:(cbn; intros; lra) 0%nat t ltac:(cbn; lia)).
  cbn [s new_spring d_spring d_damp d_mass d_tau pmap par_val] in Res.
  change (dG s 0) with g in Res. rewrite E2 in Res. clear E1 E2 E. symmetry in Res.
  assert (N1 : 2 * sqrt (d * d / 4 / m) * m - d <> 0).
  { replace (d * d / 4 / m) with ((d / 2) * (d / 2) / m) by (field; lra).
    rewrite sqrt_div by nra. rewrite sqrt_square by lra.
    assert (Sm : 0 < sqrt m) by now apply sqrt_lt_R0.
    replace (2 * (d / 2 / sqrt m) * m - d) with (d * (sqrt m - 1)).
    - intros Z. apply Rmult_integral in Z. destruct Z; [lra|]. apply Hm1.
      rewrite <- (sqrt_sqrt m) by lra. replace (sqrt m) with 1 by lra. ring.
    - rewrite <- (sqrt_sqrt m) at 3 by lra. field. lra. }
  assert (N2 : dyd s 0 t <> 0).
  { unfold dyd, dB, dZ, dA, dG. cbn.
    assert (W : 0 < dW s 0).
    { unfold dW; cbn. apply Rdiv_lt_0_compat; [|trivial]. apply sqrt_lt_R0. now apply Rdiv_lt_0_compat. }
    pose proof (exp_pos (- dW s 0 * t)).
    replace ((0 + dW s 0 * (y - g) - dW s 0 * (y - g + (0 + dW s 0 * (y - g)) * t)) * exp (- dW s 0 * t))
      with (- (dW s 0 * dW s 0 * t * exp (- dW s 0 * t)) * (y - g)) by ring.
    apply Rmult_integral_contrapositive_currified; [|lra]. apply Ropp_neq_0_compat.
    apply Rgt_not_eq. revert W H. generalize (dW s 0). intros w W Hx. repeat apply Rmult_lt_0_compat; trivial. }
  apply Rmult_integral in Res. destruct Res as [Res|Res].
  - apply Rmult_integral in Res. destruct Res; contradiction.
  - revert Res. apply Rinv_neq_0_compat. lra.
Qed.

(** ** time systems *)
Lemma time_spec tau (down : bool) ts : tau <> 0 ->
  exists xs xds, t_ana (new_time tau down) ts = Ok (map (fun x => [x]) xs, map (fun x => [x]) xds) /\
    length xs = length ts /\ length xds = length ts /\
    (forall i, (i < length ts)%nat ->
      nth i xs 0 = (if down then 1 - Rmin 1 (nth i ts 0 / tau) else Rmin 1 (nth i ts 0 / tau)) /\
      (nth i ts 0 <> tau -> t_diffeq (new_time tau down) [nth i xs 0] = Ok [nth i xds 0])).
Proof.
  intros Ht. rewrite t_ana_ok by trivial.
  exists (map (fun t => if down then Rmax 0 (1 - t / tau) else Rmin 1 (t / tau)) ts),
         (map (fun t => if down then (if Rlt_dec 1 (t / tau) then 0 else -1 / tau)
                     else (if Rlt_dec 1 (t / tau) then 0 else 1 / tau)) ts).
  rewrite !map_map, !map_length. split; [reflexivity|]. split; [reflexivity|]. split; [reflexivity|].
  intros i Hi. rewrite !(nth_map_lt _ _ _ 0 0) by trivial. split.
  - destruct down; [|reflexivity]. unfold Rmax, Rmin.
    destruct (Rle_dec 0 (1 - nth i ts 0 / tau)), (Rle_dec 1 (nth i ts 0 / tau)); lra.
  - intros Hne. now apply t_diffeq_row.
Qed.

Lemma time_range tau (down : bool) t : 0 < tau -> 0 <= t ->
  exists x xd, t_ana (new_time tau down) [t] = Ok ([[x]], [[xd]]) /\ 0 <= x <= 1.
Proof.
  intros Ht H0. rewrite t_ana_ok by lra. cbn. eexists _, _. split; [reflexivity|].
  assert (0 <= t / tau) by (apply Rmult_le_pos; [trivial|left; now apply Rinv_0_lt_compat]).
  destruct down.
  - unfold Rmax. destruct (Rle_dec 0 (1 - t / tau)); lra.
  - unfold Rmin. destruct (Rle_dec 1 (t / tau)); lra.
Qed.

(** at the end point the rate in the solution is not that of the differential equation *)
Lemma time_end tau (down : bool) : tau <> 0 ->
  exists x xd, t_ana (new_time tau down) [tau] = Ok ([[x]], [[xd]]) /\ t_diffeq (new_time tau down) [x] <> Ok [xd].
Proof.
  intros Ht. rewrite t_ana_ok by trivial. cbn. eexists _, _. split; [reflexivity|].
  assert (E : tau / tau = 1) by (field; trivial). rewrite E. 
  destruct (Rlt_dec 1 1); [lra|]. unfold t_diffeq, new_time; cbn.
  assert (N : / tau <> 0) by now apply Rinv_neq_0_compat. destruct down; cbn.
  - unfold Rmax. destruct (Rle_dec 0 (1 - 1)).
    + destruct (Rlt_dec 0 (1 - 1)); [lra|]. intros H; injection H as H. unfold Rdiv in H.
      apply N. replace (/ tau) with (- (-1 * / tau)) by ring. rewrite <- H. ring.
    + lra.
  - unfold Rmin. destruct (Rle_dec 1 1); [|lra]. destruct (Rlt_dec 1 1); [lra|].
    intros H; injection H as H. apply N. unfold Rdiv in H. lra.
Qed.

(** ** numerical integration *)
Lemma exp_steps s dt x : e_tau s <> 0 -> length (e_attr s) = length (e_init s) ->
  par_ok (e_alpha s) (length (e_init s)) -> length x = length (e_init s) ->
  exists x1 x2 xd1 xd2,
    step_rk (e_diffeq s) (length (e_init s)) dt x = Ok (x1, xd1) /\
    step_euler (e_diffeq s) (length (e_init s)) dt x = Ok (x2, xd2) /\
    forall i, (i < length x)%nat ->
      let z := par_val (e_alpha s) i * dt / e_tau s in
      let dist v := nth i v 0 - nth i (e_attr s) 0 in
      dist x1 = rk_factor z * dist x /\ dist x2 = (1 - z) * dist x /\
      (0 <= z -> Rabs (dist x1 - exp (- z) * dist x) <= z ^ 5 / 120 * Rabs (dist x)) /\
      (0 < z <= 2 -> dist x <> 0 -> 0 < dist x1 / dist x < 1).
Proof.
  intros Ht Ha Hp Hx. pose proof (e_computes s Ht Ha Hp) as HF.
  rewrite (step_rk_ok _ _ _ HF) by trivial. rewrite (step_euler_ok _ _ _ HF) by trivial.
  eexists _, _, _, _. split; [reflexivity|]. split; [reflexivity|]. intros i Hi z dist.
  assert (E : dist (rk4 (eF s) dt x) = rk_factor z * dist x) by (apply e_rk4; trivial; congruence).
  split; [exact E|]. split; [apply e_euler; trivial; congruence|]. split.
  - intros Hz. rewrite E. replace (rk_factor z * dist x - exp (- z) * dist x) with ((rk_factor z - exp (- z)) * dist x) by ring.
    rewrite Rabs_mult. apply Rmult_le_compat_r; [apply Rabs_pos|].
    rewrite Rabs_pos_eq by now apply tay4. pose proof (tay5 z Hz). lra.
  - intros Hz Hn. rewrite E. replace (rk_factor z * dist x / dist x) with (rk_factor z) by (field; trivial).
    now apply rk_factor_bounds.
Qed.

Lemma err_sum_sumn s i ts j :
  err_sum s i ts j = sumn j (fun k => (par_val (e_alpha s) i / e_tau s * (nth (S k) ts 0 - nth k ts 0)) ^ 5 / 120).
Proof. induction j; cbn [err_sum sumn]; [reflexivity|]. now rewrite IHj. Qed.

Lemma exp_global s ts : e_tau s <> 0 -> length (e_attr s) = length (e_init s) ->
  par_ok (e_alpha s) (length (e_init s)) -> (0 < length ts)%nat -> nth 0 ts 0 = 0 ->
  exists xs xds ys yds,
    integrate (e_diffeq s) (length (e_init s)) RungeKutta (e_init s) ts = Ok (xs, xds) /\
    e_ana s ts = Ok (ys, yds) /\
    forall i, (i < length (e_init s))%nat ->
      let z k := par_val (e_alpha s) i * (nth (S k) ts 0 - nth k ts 0) / e_tau s in
      (forall k, (S k < length ts)%nat -> 0 <= z k <= 2) ->
      forall j, (j < length ts)%nat ->
        Rabs (nth i (nth j xs []) 0 - nth i (nth j ys []) 0)
        <= sumn j (fun k => z k ^ 5 / 120) * Rabs (nth i (e_init s) 0 - nth i (e_attr s) 0).
Proof.
  intros Ht Ha Hp Hl H0. destruct ts as [|t0 ts]; [cbn in Hl; lia|].
  destruct (integrate_total _ _ RungeKutta _ (e_init s) t0 ts (e_computes s Ht Ha Hp) eq_refl) as (xs & xds & E & _ & _).
  exists xs, xds, (map (eX s) (t0 :: ts)), (map (eXd s) (t0 :: ts)). split; [exact E|].
  split; [now apply e_ana_ok|]. intros i Hi z Hz j Hj.
  destruct (e_global s Ht Ha Hp i Hi (t0 :: ts) Hl H0) with (xs := xs) (xds := xds) (j := j) as (_ & P & EP & BP & _ & HE); trivial.
  { intros k Hk. specialize (Hz k Hk). unfold z in Hz.
    replace (par_val (e_alpha s) i / e_tau s * (nth (S k) (t0 :: ts) 0 - nth k (t0 :: ts) 0))
      with (par_val (e_alpha s) i * (nth (S k) (t0 :: ts) 0 - nth k (t0 :: ts) 0) / e_tau s) by (field; trivial). exact Hz. }
  rewrite (nth_map_lt _ _ _ 0 []) by trivial. rewrite nth_eX by trivial.
  replace (nth i (nth j xs []) 0) with (P * (nth i (e_init s) 0 - nth i (e_attr s) 0) + nth i (e_attr s) 0) by lra.
  set (v := nth i (e_init s) 0 - nth i (e_attr s) 0) in *.
  replace (- par_val (e_alpha s) i * nth j (t0 :: ts) 0 / e_tau s)
    with (- (par_val (e_alpha s) i / e_tau s * nth j (t0 :: ts) 0)) by (field; trivial).
  set (ex := exp _) in *.
  replace (P * v + nth i (e_attr s) 0 - (v * ex + nth i (e_attr s) 0)) with ((P - ex) * v) by ring.
  rewrite Rabs_mult. apply Rmult_le_compat_r; [apply Rabs_pos|]. eapply Rle_trans; [exact HE|].
  rewrite err_sum_sumn. right. apply sumn_ext. intros k Hk. unfold z. f_equal. f_equal. field. trivial.
Qed.

(** ** decoupling *)
Lemma e_same s : length (e_attr s) = length (e_init s) -> par_ok (e_alpha s) (length (e_init s)) ->
  same_behaviour (length (e_init s)) (e_init s) (e_diffeq s) (e_diffeq (e_decouple s)) (e_ana s) (e_ana (e_decouple s)).
Proof.
  intros Ha Hp.
  assert (A : forall x, length x = length (e_init s) -> e_diffeq s x = e_diffeq (e_decouple s) x)
    by (intros; symmetry; now apply e_decouple_diffeq).
  assert (B : forall x y, length x = length (e_init s) -> e_diffeq s x = Ok y -> length y = length (e_init s)).
  { intros x y Hx. unfold e_diffeq. rewrite vop_same by congruence. cbn [bind].
    rewrite (map2_seq _ _ _ (length (e_init s))) by congruence.
    rewrite (pop_seq _ _ _ (length (e_init s))) by (trivial; now rewrite map_length, seq_length). cbn [bind].
    unfold vdiv. destruct (Req_EM_T (e_tau s) 0).
    - destruct (map _ _) as [|u l] eqn:E; [|discriminate]. intros H; injection H as <-.
      apply (f_equal (@length _)) in E. rewrite map_length, seq_length in E. now rewrite E.
    - intros H; injection H as <-. now rewrite !map_length, seq_length. }
  split; [exact A|]. split; [intros; symmetry; apply e_decouple_ana|]. split.
  - intros m ts. now apply integrate_ext.
  - intros. now apply step_ext.
Qed.

Lemma s_same s : par_ok (g_rate s) (length (g_init s)) ->
  same_behaviour (length (g_init s)) (g_init s) (s_diffeq s) (s_diffeq (s_decouple s)) (s_ana s) (s_ana (s_decouple s)).
Proof.
  intros Hp.
  assert (A : forall x, length x = length (g_init s) -> s_diffeq s x = s_diffeq (s_decouple s) x)
    by (intros; symmetry; now apply s_decouple_diffeq).
  assert (B : forall x y, length x = length (g_init s) -> s_diffeq s x = Ok y -> length y = length (g_init s)).
  { intros x y Hx. unfold s_diffeq. destruct (s_ks s) as [ks|] eqn:Ek; cbn [bind]; [|discriminate].
    apply mapM_ok_length in Ek. rewrite seq_length in Ek. unfold s_diffeq_k. destruct (existsb _ _); [discriminate|].
    rewrite vop_same by congruence. cbn [bind]. rewrite (pop_seq _ _ _ (length (g_init s))) by trivial. cbn [bind].
    rewrite vop_same by (rewrite !map_length, seq_length, map2_length; lia). intros H; injection H as <-.
    rewrite map2_length, !map_length, seq_length, map2_length. lia. }
  split; [exact A|]. split; [intros; symmetry; apply s_decouple_ana|]. split.
  - intros m ts. now apply integrate_ext.
  - intros. now apply step_ext.
Qed.

Lemma r_same s :
  same_behaviour (length (h_init s)) (h_init s) (r_diffeq s) (r_diffeq (r_decouple s)) (r_ana s) (r_ana (r_decouple s)).
Proof.
  assert (A : forall x, length x = length (h_init s) -> r_diffeq s x = r_diffeq (r_decouple s) x)
    by (intros; symmetry; now apply r_decouple_diffeq).
  assert (B : forall x y, length x = length (h_init s) -> r_diffeq s x = Ok y -> length y = length (h_init s)).
  { intros x y Hx. unfold r_diffeq. rewrite Hx, Nat.eqb_refl. intros H. apply mapM_ok_length in H.
    now rewrite seq_length in H. }
  split; [exact A|]. split; [intros; symmetry; apply r_decouple_ana|]. split.
  - intros m ts. now apply integrate_ext.
  - intros. now apply step_ext.
Qed.

Lemma d_same s : length (d_init s) = (2 * d_dimy s)%nat ->
  same_behaviour (length (d_init s)) (d_init s) (d_diffeq s) (d_diffeq (d_decouple s)) (d_ana s) (d_ana (d_decouple s)).
Proof.
  intros Hl.
  assert (A : forall x, length x = length (d_init s) -> d_diffeq s x = d_diffeq (d_decouple s) x)
    by (intros; symmetry; now apply d_decouple_diffeq).
  assert (B : forall x y, length x = length (d_init s) -> d_diffeq s x = Ok y -> length y = length (d_init s)).
  { intros x y Hx. unfold d_diffeq. 
    assert (Hz : length (skipn (d_dimy s) x) = d_dimy s) by (rewrite skipn_length; lia).
    destruct (vdiv (skipn (d_dimy s) x) (d_tau s)) as [yd|] eqn:E; cbn [bind]; [|discriminate].
    assert (Ly : length yd = d_dimy s).
    { unfold vdiv in E. destruct (Req_EM_T (d_tau s) 0).
      - destruct (skipn (d_dimy s) x); [injection E as <-; exact Hz|discriminate].
      - injection E as <-. now rewrite map_length. }
    destruct (mapM _ _) as [zd|] eqn:E'; cbn [bind]; [|discriminate]. apply mapM_ok_length in E'. rewrite seq_length in E'.
    intros H; injection H as <-. rewrite app_length. lia. }
  split; [exact A|]. split; [intros; symmetry; apply d_decouple_ana|]. split.
  - intros m ts. now apply integrate_ext.
  - intros. now apply step_ext.
Qed.

(** ** initial states *)
Lemma set_get_y dim_y dim_x y : (dim_y <= dim_x)%nat ->
  (length y = dim_y -> exists x, set_y_init dim_y dim_x y = Ok x /\ get_y_init dim_y x = y /\ length x = dim_x /\
      (forall i, (dim_y <= i)%nat -> nth i x 0 = 0) /\
      (forall f m ts xs xds, integrate f dim_x m x ts = Ok (xs, xds) -> nth 0 xs [] = x)) /\
  (length y <> dim_y -> set_y_init dim_y dim_x y = Err ValueError).
Proof.
  intros Hd. split.
  - intros <-. unfold set_y_init. rewrite Nat.eqb_refl. unfold set_x_init.
    rewrite pad_length by trivial. rewrite Nat.eqb_refl. eexists. split; [reflexivity|]. split; [|split; [|split]].
    + unfold get_y_init, pad. rewrite firstn_app, Nat.sub_diag, firstn_all. apply app_nil_r.
    + now apply pad_length.
    + intros i Hi. now apply nth_pad.
    + intros f m ts xs xds H. now destruct (integrate_spec _ _ _ _ _ _ _ H) as (_ & _ & E & _).
  - intros H. apply Nat.eqb_neq in H. unfold set_y_init. now rewrite H.
Qed.

Lemma set_get_x dim_x x :
  (length x = dim_x -> set_x_init dim_x x = Ok x /\ get_x_init x = x /\
      (forall f m ts xs xds, integrate f dim_x m x ts = Ok (xs, xds) -> nth 0 xs [] = x)) /\
  (length x <> dim_x -> set_x_init dim_x x = Err ValueError).
Proof.
  unfold set_x_init. split.
  - intros <-. rewrite Nat.eqb_refl. repeat split.
    intros f m ts xs xds H. now destruct (integrate_spec _ _ _ _ _ _ _ H) as (_ & _ & E & _).
  - intros H. apply Nat.eqb_neq in H. now rewrite H.
Qed.
