(** Proofs: accuracy of numerical integration of exponential systems, decoupling of parameters. *)
From Verif Require Import Base BaseLemmas DynModel DynSpec DynProofs DynProofs2 DynProofs3 DynProofs4 DynProofs5.
From Coquelicot Require Import Coquelicot.

(** ** Taylor bounds of exp(-z) *)
Lemma mono_from_deriv (g g' : R -> R) : (forall x, is_derive g x (g' x)) -> (forall x, 0 <= x -> 0 <= g' x) -> g 0 = 0 ->
  forall z, 0 <= z -> 0 <= g z.
Proof.
  intros Hd Hp H0 z Hz. destruct Hz as [Hz|<-]; [|lra].
  destruct (MVT_gen g 0 z g') as [c [Hc E]].
  - intros; apply Hd.
  - intros x _. apply continuity_pt_filterlim. apply (ex_derive_continuous (V := R_NormedModule)). exists (g' x). apply Hd.
  - rewrite Rmin_left, Rmax_right in Hc by lra. pose proof (Hp c (proj1 Hc)).
    rewrite H0 in E. assert (0 <= g' c * (z - 0)) by (apply Rmult_le_pos; lra). lra.
Qed.

Ltac dstep := intros; auto_derive; trivial; field.
Lemma tay0 z : 0 <= z -> 0 <= 1 - exp (- z).
Proof.
  intros H. assert (exp (- z) <= exp 0); [|rewrite exp_0 in *; lra].
  destruct H as [H|<-]; [left; apply exp_increasing; lra|rewrite Ropp_0; lra].
Qed.
Lemma tay1 z : 0 <= z -> 0 <= exp (- z) - (1 - z).
Proof.
  apply (mono_from_deriv (fun z => exp (- z) - (1 - z)) (fun z => 1 - exp (- z))).
  - dstep. - apply tay0. - rewrite Ropp_0, exp_0; lra.
Qed.
Lemma tay2 z : 0 <= z -> 0 <= (1 - z + z ^ 2 / 2) - exp (- z).
Proof.
  apply (mono_from_deriv (fun z => (1 - z + z ^ 2 / 2) - exp (- z)) (fun z => exp (- z) - (1 - z))).
  - dstep. - apply tay1. - rewrite Ropp_0, exp_0; lra.
Qed.
Lemma tay3 z : 0 <= z -> 0 <= exp (- z) - (1 - z + z ^ 2 / 2 - z ^ 3 / 6).
Proof.
  apply (mono_from_deriv (fun z => exp (- z) - (1 - z + z ^ 2 / 2 - z ^ 3 / 6)) (fun z => (1 - z + z ^ 2 / 2) - exp (- z))).
  - dstep. - apply tay2. - rewrite Ropp_0, exp_0; lra.
Qed.
Lemma tay4 z : 0 <= z -> 0 <= rk_factor z - exp (- z).
Proof.
  apply (mono_from_deriv (fun z => rk_factor z - exp (- z)) (fun z => exp (- z) - (1 - z + z ^ 2 / 2 - z ^ 3 / 6))).
  - intros x. unfold rk_factor. auto_derive; trivial. field.
  - apply tay3. - unfold rk_factor. rewrite Ropp_0, exp_0; lra.
Qed.
Lemma tay5 z : 0 <= z -> 0 <= z ^ 5 / 120 - (rk_factor z - exp (- z)).
Proof.
  apply (mono_from_deriv (fun z => z ^ 5 / 120 - (rk_factor z - exp (- z))) (fun z => rk_factor z - exp (- z))).
  - intros x. unfold rk_factor. auto_derive; trivial. field.
  - apply tay4. - unfold rk_factor. rewrite Ropp_0, exp_0; lra.
Qed.

Lemma rk_factor_bounds z : 0 < z <= 2 -> 0 < rk_factor z < 1.
Proof.
  intros [H0 H2]. split.
  - pose proof (tay4 z ltac:(lra)). pose proof (exp_pos (- z)). lra.
  - unfold rk_factor.
    assert (0 < z * ((1 - z / 2) + z ^ 2 / 6 * (1 - z / 4))).
    { apply Rmult_lt_0_compat; [trivial|]. assert (0 < z ^ 2 / 6 * (1 - z / 4)); [|lra].
      apply Rmult_lt_0_compat; [|lra]. assert (0 < z ^ 2) by (apply pow_lt; trivial). lra. }
    lra.
Qed.

(** ** exponential systems *)
Section Expo.
Variable s : esys.
Let n := length (e_init s).
Hypothesis Ht : e_tau s <> 0.
Hypothesis Ha : length (e_attr s) = length (e_init s).
Hypothesis Hp : par_ok (e_alpha s) (length (e_init s)).

Definition eF (x : list R) : list R :=
  map (fun i => par_val (e_alpha s) i * (nth i (e_attr s) 0 - nth i x 0) / e_tau s) (seq 0 (length (e_init s))).

Lemma e_computes : computes (e_diffeq s) n eF.
Proof.
  intros x Hx. split; [now apply e_diffeq_ok|]. unfold eF. now rewrite map_length, seq_length.
Qed.

Lemma nth_eF x i : (i < n)%nat -> nth i (eF x) 0 = par_val (e_alpha s) i * (nth i (e_attr s) 0 - nth i x 0) / e_tau s.
Proof. intros; unfold eF; now rewrite nth_map_seq. Qed.
Lemma eF_length x : length (eF x) = n.
Proof. unfold eF; now rewrite map_length, seq_length. Qed.

Lemma e_rk4 dt x i : length x = n -> (i < n)%nat ->
  nth i (rk4 eF dt x) 0 - nth i (e_attr s) 0
  = rk_factor (par_val (e_alpha s) i * dt / e_tau s) * (nth i x 0 - nth i (e_attr s) 0).
Proof.
  intros Hx Hi. unfold rk4.
  set (k1 := eF x). set (k2 := eF (axpy (dt / 2) x k1)). set (k3 := eF (axpy (dt / 2) x k2)). set (k4 := eF (axpy dt x k3)).
  assert (L1 : length k1 = n) by apply eF_length. assert (L2 : length k2 = n) by apply eF_length.
  assert (L3 : length k3 = n) by apply eF_length. assert (L4 : length k4 = n) by apply eF_length.
  assert (A1 : length (axpy 2 k1 k2) = n) by (rewrite axpy_length; congruence).
  assert (A2 : length (axpy 2 (axpy 2 k1 k2) k3) = n) by (rewrite axpy_length; congruence).
  assert (A3 : length (axpy 1 (axpy 2 (axpy 2 k1 k2) k3) k4) = n) by (rewrite axpy_length; congruence).
  rewrite !nth_axpy by (congruence || lia).
  unfold k4. rewrite nth_eF by trivial. rewrite nth_axpy by (congruence || lia).
  unfold k3. rewrite nth_eF by trivial. rewrite nth_axpy by (congruence || lia).
  unfold k2. rewrite nth_eF by trivial. rewrite nth_axpy by (congruence || lia).
  unfold k1. rewrite nth_eF by trivial. unfold rk_factor. field. trivial.
Qed.

Lemma e_euler dt x i : length x = n -> (i < n)%nat ->
  nth i (euler eF dt x) 0 - nth i (e_attr s) 0
  = (1 - par_val (e_alpha s) i * dt / e_tau s) * (nth i x 0 - nth i (e_attr s) 0).
Proof.
  intros Hx Hi. unfold euler. rewrite nth_axpy by (rewrite ?eF_length; congruence || lia). rewrite nth_eF by trivial. field. trivial.
Qed.
End Expo.

(** error of several Runge-Kutta steps relative to the exact solution *)
Lemma prod_error p e P E d D : 0 <= P <= 1 -> 0 <= e <= 1 -> Rabs (p - e) <= d -> Rabs (P - E) <= D ->
  Rabs (p * P - e * E) <= d + D.
Proof.
  intros HP He Hd HD. replace (p * P - e * E) with ((p - e) * P + e * (P - E)) by ring.
  eapply Rle_trans; [apply Rabs_triang|]. rewrite !Rabs_mult, (Rabs_pos_eq P), (Rabs_pos_eq e) by lra.
  pose proof (Rabs_pos (p - e)). pose proof (Rabs_pos (P - E)). nra.
Qed.

Section Global.
Variable s : esys.
Let n := length (e_init s).
Hypothesis Ht : e_tau s <> 0.
Hypothesis Ha : length (e_attr s) = length (e_init s).
Hypothesis Hp : par_ok (e_alpha s) (length (e_init s)).
Variable i : nat.
Hypothesis Hi : (i < length (e_init s))%nat.
Let c := par_val (e_alpha s) i / e_tau s.
Variable ts : list R.
Hypothesis Hlen : (0 < length ts)%nat.
Hypothesis Hstart : nth 0 ts 0 = 0.
Hypothesis Hstep : forall j, (S j < length ts)%nat -> 0 <= c * (nth (S j) ts 0 - nth j ts 0) <= 2.

(** sum of the fifth powers of the first j normalised steps *)
Fixpoint err_sum (j : nat) : R :=
  match j with
  | O => 0
  | S j' => err_sum j' + (c * (nth (S j') ts 0 - nth j' ts 0)) ^ 5 / 120
  end.

Lemma e_global xs xds : integrate (e_diffeq s) n RungeKutta (e_init s) ts = Ok (xs, xds) ->
  forall j, (j < length ts)%nat ->
    length (nth j xs nil) = n /\
    exists P, nth i (nth j xs nil) 0 - nth i (e_attr s) 0 = P * (nth i (e_init s) 0 - nth i (e_attr s) 0) /\
      0 <= P <= 1 /\ 0 <= c * nth j ts 0 /\ Rabs (P - exp (- (c * nth j ts 0))) <= err_sum j.
Proof.
  intros H. destruct (integrate_spec _ _ _ _ _ _ _ H) as (L1 & L2 & E0 & _ & HS).
  induction j as [|j IH]; intros Hj.
  - rewrite E0. split; [reflexivity|]. exists 1. split; [ring|]. split; [lra|]. rewrite Hstart, Rmult_0_r.
    split; [lra|]. rewrite Ropp_0, exp_0, Rminus_eq_0, Rabs_R0. cbn. lra.
  - destruct IH as (Lj & P & EP & BP & Hc & EE); [lia|].
    specialize (HS j Hj). cbn [int_step] in HS.
    rewrite (step_rk_ok _ _ _ (e_computes s Ht Ha Hp)) in HS by exact Lj.
    injection HS as HS1 HS2. rewrite <- HS1. split; [apply (rk4_length _ _ _ (e_computes s Ht Ha Hp)); exact Lj|].
    rewrite e_rk4 by trivial. rewrite EP.
    set (z := c * (nth (S j) ts 0 - nth j ts 0)).
    replace (par_val (e_alpha s) i * (nth (S j) ts 0 - nth j ts 0) / e_tau s) with z by (unfold z, c; field; trivial).
    assert (Hz : 0 <= z <= 2) by (apply Hstep; trivial).
    assert (Bz : 0 <= rk_factor z <= 1).
    { destruct (proj1 Hz) as [Hz1|<-]; [pose proof (rk_factor_bounds z ltac:(lra)); lra|unfold rk_factor; lra]. }
    exists (rk_factor z * P). split; [ring|]. split; [split; [apply Rmult_le_pos; lra|nra]|].
    assert (Ez : c * nth (S j) ts 0 = z + c * nth j ts 0) by (unfold z; ring).
    split; [rewrite Ez; lra|]. rewrite Ez, Ropp_plus_distr, exp_plus. cbn [err_sum]. fold z. rewrite Rplus_comm.
    apply prod_error; trivial.
    + split; [left; apply exp_pos|]. pose proof (tay0 z (proj1 Hz)). lra.
    + rewrite Rabs_pos_eq by (apply tay4; lra). pose proof (tay5 z (proj1 Hz)). lra.
Qed.
End Global.

(** ** decoupling *)
Lemma par_val_decouple p n i : (i < n)%nat -> par_val (decouple n p) i = par_val p i.
Proof.
  destruct p; cbn; intros H; [|reflexivity]. revert i H; induction n; intros [|i] H; cbn; try lia; [reflexivity|].
  apply IHn. lia.
Qed.
Lemma par_at_decouple p n i : (i < n)%nat -> par_at (decouple n p) i = par_at p i.
Proof.
  destruct p as [r|l]; cbn; intros H; [|reflexivity].
  rewrite (nth_res_ok _ _ 0) by (now rewrite repeat_length). f_equal.
  apply (par_val_decouple (PScal r) n i H).
Qed.

Lemma vop_repeat f r n d : length d = n \/ n = 1%nat -> vop f (repeat r n) d = Ok (map (f r) d).
Proof.
  intros [<-| ->].
  - rewrite vop_same by apply repeat_length. f_equal. induction d; cbn; [reflexivity|]. now f_equal.
  - cbn. unfold vop. destruct d as [|a [|b d]]; reflexivity.
Qed.

Lemma vop_length f a b d : vop f a b = Ok d -> length d = length b \/ length b = 1%nat.
Proof.
  unfold vop. destruct (Nat.eqb (length a) (length b)) eqn:E.
  - apply Nat.eqb_eq in E. intros H; injection H as <-. left. rewrite map2_length. lia.
  - destruct a as [|x [|y a]]; destruct b as [|u [|w b]]; intros H; try discriminate; injection H as <-; cbn; auto.
    left. now rewrite map_length.
Qed.

Lemma e_decouple_diffeq s x : length x = length (e_init s) -> e_diffeq (e_decouple s) x = e_diffeq s x.
Proof.
  intros Hx. unfold e_diffeq, e_decouple; cbn.
  destruct (vop Rminus (e_attr s) x) as [d|] eqn:E; cbn [bind]; [|reflexivity].
  apply vop_length in E. f_equal. destruct (e_alpha s) as [r|l]; cbn; [|reflexivity].
  apply vop_repeat. lia.
Qed.
Lemma e_decouple_ana s ts : e_ana (e_decouple s) ts = e_ana s ts.
Proof.
  unfold e_ana, e_decouple; cbn. f_equal. apply mapM_ext. intros i Hi. apply in_seq in Hi.
  now rewrite par_at_decouple by lia.
Qed.

Lemma s_decouple_ks s : s_ks (s_decouple s) = s_ks s.
Proof.
  unfold s_ks, s_decouple; cbn. apply mapM_ext. intros i Hi. apply in_seq in Hi.
  now rewrite !par_at_decouple by lia.
Qed.
Lemma s_decouple_diffeq s x : length x = length (g_init s) -> s_diffeq (s_decouple s) x = s_diffeq s x.
Proof.
  intros Hx. unfold s_diffeq. rewrite s_decouple_ks. destruct (s_ks s) as [ks|]; cbn [bind]; [|reflexivity].
  unfold s_diffeq_k; cbn. destruct (existsb _ _); [reflexivity|]. destruct (vop Rdiv x ks); cbn [bind]; [|reflexivity].
  f_equal. destruct (g_rate s); cbn; [|reflexivity]. apply vop_repeat. lia.
Qed.
Lemma s_decouple_ana s ts : s_ana (s_decouple s) ts = s_ana s ts.
Proof.
  unfold s_ana. rewrite s_decouple_ks. destruct (s_ks s) as [ks|]; cbn [bind]; [|reflexivity].
  unfold s_ana_k; cbn. f_equal. apply mapM_ext. intros i Hi. apply in_seq in Hi. now rewrite par_at_decouple by lia.
Qed.

Lemma map_repeat' {A B} (f : A -> B) r n : map f (repeat r n) = repeat (f r) n.
Proof. induction n; cbn; [reflexivity|]. now f_equal. Qed.
Lemma pmap_decouple f n p : pmap f (decouple n p) = decouple n (pmap f p).
Proof. destruct p; cbn; [|reflexivity]. now rewrite map_repeat'. Qed.
Lemma r_decouple_at s i : (i < length (h_init s))%nat -> r_at (r_decouple s) i = r_at s i.
Proof.
  intros Hi. unfold r_at, r_v, r_decouple; cbn. rewrite !par_at_decouple by trivial.
  f_equal. destruct (h_left s); cbn; [now rewrite par_at_decouple|]. now rewrite pmap_decouple, par_at_decouple.
Qed.
Lemma r_decouple_diffeq s x : r_diffeq (r_decouple s) x = r_diffeq s x.
Proof.
  unfold r_diffeq; cbn [h_init h_tau r_decouple]. destruct (Nat.eqb (length x) (length (h_init s))) eqn:E; [|reflexivity].
  apply Nat.eqb_eq in E. apply mapM_ext. intros i Hi. apply in_seq in Hi.
  change (Rsys _ _ _ _ _ _ _) with (r_decouple s). rewrite r_decouple_at by lia. reflexivity.
Qed.
Lemma r_decouple_ana s ts : r_ana (r_decouple s) ts = r_ana s ts.
Proof.
  unfold r_ana; cbn [h_init h_tau r_decouple]. f_equal. apply mapM_ext. intros t _. apply mapM_ext. intros i Hi. apply in_seq in Hi.
  change (Rsys _ _ _ _ _ _ _) with (r_decouple s). rewrite r_decouple_at by lia. reflexivity.
Qed.

Lemma d_decouple_diffeq s x : d_diffeq (d_decouple s) x = d_diffeq s x.
Proof.
  unfold d_diffeq, d_decouple; cbn. destruct (vdiv _ _); cbn [bind]; [|reflexivity]. f_equal.
  apply mapM_ext. intros i Hi. apply in_seq in Hi. now rewrite !par_at_decouple by lia.
Qed.
Lemma d_decouple_ana s ts : d_ana (d_decouple s) ts = d_ana s ts.
Proof.
  unfold d_ana, d_decouple; cbn. f_equal. unfold d_coeffs; cbn. apply mapM_ext. intros i Hi. apply in_seq in Hi.
  now rewrite !par_at_decouple by lia.
Qed.

(** integration depends on the differential equation only through states of the right size *)
Section Ext.
Variables (f g : list R -> res (list R)) (n : nat).
Hypothesis Hfg : forall x, length x = n -> f x = g x.
Hypothesis Hlen : forall x y, length x = n -> f x = Ok y -> length y = n.

Lemma vop_len_eq h a b d : length a = n -> length b = n -> vop h a b = Ok d -> length d = n.
Proof. intros Ha Hb. rewrite vop_same by congruence. intros H; injection H as <-. rewrite map2_length. lia. Qed.

Lemma bind_ext {A B} (a : res A) (k1 k2 : A -> res B) : (forall y, a = Ok y -> k1 y = k2 y) -> bind a k1 = bind a k2.
Proof. destruct a; cbn; intros H; [now apply H|reflexivity]. Qed.

Ltac stepf := apply bind_ext; let y := fresh "y" in let E := fresh "E" in let L := fresh "L" in
  intros y E; assert (L : length y = n) by (eapply Hlen; [|exact E]; assumption); cbv beta.
Ltac stepv := apply bind_ext; let y := fresh "y" in let E := fresh "E" in let L := fresh "L" in
  intros y E; assert (L : length y = n) by (revert E; apply vop_len_eq; rewrite ?map_length; assumption); cbv beta.

Lemma step_ext m dt x : int_step f n m dt x = int_step g n m dt x.
Proof.
  destruct m; cbn [int_step]; [unfold step_rk|unfold step_euler]; destruct (Nat.eqb (length x) n) eqn:E0; trivial; apply Nat.eqb_eq in E0.
  - rewrite <- (Hfg x) by trivial. stepf. stepv. rewrite <- Hfg by assumption. stepf. stepv.
    rewrite <- Hfg by assumption. stepf. stepv. rewrite <- Hfg by assumption. stepf.
    stepv. stepv. stepv. stepv. rewrite <- Hfg by assumption. reflexivity.
  - rewrite <- (Hfg x) by trivial. reflexivity.
Qed.

Lemma int_loop_ext m ts : forall t x, int_loop f n m t x ts = int_loop g n m t x ts.
Proof.
  induction ts as [|t' ts IH]; intros t x; cbn; [reflexivity|].
  change (match m with RungeKutta => step_rk | Euler => step_euler end f n (t' - t) x) with (int_step f n m (t' - t) x).
  change (match m with RungeKutta => step_rk | Euler => step_euler end g n (t' - t) x) with (int_step g n m (t' - t) x).
  rewrite step_ext. destruct (int_step g n m (t' - t) x) as [[x' xd']|]; cbn; [|reflexivity]. now rewrite IH.
Qed.
Lemma integrate_ext m x0 ts : length x0 = n -> integrate f n m x0 ts = integrate g n m x0 ts.
Proof.
  intros Hx. unfold integrate, integrate_start. rewrite (Hfg x0) by trivial.
  destruct (g x0); cbn; [|reflexivity]. destruct ts; [reflexivity|]. now rewrite int_loop_ext.
Qed.
End Ext.
