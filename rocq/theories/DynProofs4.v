(** Proofs: spring-damper systems. *)
From Verif Require Import Base BaseLemmas DynModel DynSpec DynProofs DynProofs3.
From Coquelicot Require Import Coquelicot.

Section Spring.
Variable s : dsys.
Let n := d_dimy s.
Let tau := d_tau s.
Hypothesis Htau : d_tau s <> 0.
Hypothesis Hinit : length (d_init s) = (2 * d_dimy s)%nat.
Hypothesis Hattr : length (d_attr s) = d_dimy s.
Hypothesis Hd : par_ok (d_damp s) (d_dimy s).
Hypothesis Hk : par_ok (d_spring s) (d_dimy s).
Hypothesis Hm : par_ok (d_mass s) (d_dimy s).
Let K i := par_val (d_spring s) i.
Let M i := par_val (d_mass s) i.
Let D i := par_val (d_damp s) i.
Hypothesis HM : forall i, (i < d_dimy s)%nat -> 0 < par_val (d_mass s) i.
Hypothesis HK : forall i, (i < d_dimy s)%nat -> 0 <= par_val (d_spring s) i.

Definition dG i := nth i (d_attr s) 0.
Definition dW i := sqrt (par_val (d_spring s) i / par_val (d_mass s) i) / d_tau s.
Definition dA i := nth i (d_init s) 0 - dG i.
Definition dZ i := nth (d_dimy s + i) (d_init s) 0.
Definition dB i := dZ i + dW i * dA i.
Definition dy i t := dG i + (dA i + dB i * t) * exp (- dW i * t).
Definition dyd i t := (dB i - dW i * (dA i + dB i * t)) * exp (- dW i * t).
Definition dydd i t := (- dW i * (2 * dB i - dW i * (dA i + dB i * t))) * exp (- dW i * t).
Definition dX t := (map (fun i => dy i t) (seq 0 (d_dimy s)) ++ map (fun i => dyd i t * d_tau s) (seq 0 (d_dimy s)))%list.
Definition dXd t := (map (fun i => dyd i t) (seq 0 (d_dimy s)) ++ map (fun i => dydd i t * d_tau s) (seq 0 (d_dimy s)))%list.

Lemma d_coeffs_ok : d_coeffs s = Ok (map (fun i => (dG i, dA i, dB i, dW i)) (seq 0 (d_dimy s))).
Proof.
  unfold d_coeffs. apply mapM_pure. intros i Hi. apply in_seq in Hi.
  rewrite (par_at_ok _ (d_dimy s)) by (trivial; lia). cbn [bind].
  rewrite (par_at_ok _ (d_dimy s)) by (trivial; lia). cbn [bind].
  rewrite (nth_res_ok _ _ 0) by lia. cbn [bind]. rewrite (nth_res_ok _ _ 0) by lia. cbn [bind].
  rewrite (nth_res_ok _ _ 0) by lia. cbn [bind].
  assert (0 < par_val (d_mass s) i) by (apply HM; lia).
  assert (0 <= par_val (d_spring s) i) by (apply HK; lia).
  assert (0 <= par_val (d_spring s) i / par_val (d_mass s) i)
    by (apply Rmult_le_pos; [trivial|left; now apply Rinv_0_lt_compat]).
  destruct (Req_EM_T (par_val (d_mass s) i) 0); [lra|].
  destruct (Rlt_dec (par_val (d_spring s) i / par_val (d_mass s) i) 0); [lra|].
  destruct (Req_EM_T (d_tau s) 0); [contradiction|]. reflexivity.
Qed.

Lemma d_ana_ok ts : d_ana s ts = Ok (map dX ts, map dXd ts).
Proof.
  unfold d_ana. rewrite d_coeffs_ok. cbn [bind]. f_equal.
  f_equal; apply map_ext; intros t; rewrite !map_map; reflexivity.
Qed.

Lemma dX_length t : length (dX t) = length (d_init s).
Proof. unfold dX. rewrite app_length, !map_length, !seq_length. lia. Qed.
Lemma dXd_length t : length (dXd t) = length (d_init s).
Proof. unfold dXd. rewrite app_length, !map_length, !seq_length. lia. Qed.

Lemma d_diffeq_ok y z : length y = d_dimy s -> length z = d_dimy s ->
  d_diffeq s (y ++ z)%list = Ok (map (fun v => v / d_tau s) z ++
     map (fun i => (- par_val (d_spring s) i * (nth i y 0 - dG i) - par_val (d_damp s) i * nth i z 0)
                   / (par_val (d_mass s) i * d_tau s)) (seq 0 (d_dimy s)))%list.
Proof.
  intros Hy Hz. unfold d_diffeq. cbv zeta.
  assert (E1 : firstn (d_dimy s) (y ++ z) = y).
  { rewrite <- Hy, firstn_app, Nat.sub_diag, firstn_all. apply app_nil_r. }
  assert (E2 : skipn (d_dimy s) (y ++ z) = z).
  { rewrite <- Hy, skipn_app, Nat.sub_diag, skipn_all. reflexivity. }
  rewrite E1, E2. clear E1 E2.
  rewrite vdiv_ok by trivial. cbn [bind].
  erewrite mapM_pure; [reflexivity|]. intros i Hi. apply in_seq in Hi. cbn beta.
  rewrite (par_at_ok _ _ _ Hk) by lia. cbn [bind].
  rewrite (par_at_ok _ _ _ Hd) by lia. cbn [bind].
  rewrite (par_at_ok _ _ _ Hm) by lia. cbn [bind].
  rewrite (nth_res_ok y _ 0) by lia. cbn [bind]. rewrite (nth_res_ok z _ 0) by lia. cbn [bind].
  rewrite (nth_res_ok (d_attr s) _ 0) by lia. cbn [bind].
  assert (0 < par_val (d_mass s) i) by (apply HM; lia).
  destruct (Req_EM_T (par_val (d_mass s) i * d_tau s) 0) as [E|]; [|reflexivity].
  exfalso. revert E. apply Rmult_integral_contrapositive_currified; [lra|trivial].
Qed.

(** the residual of the differential equation *)
Lemma d_residual i t : (i < d_dimy s)%nat ->
  (- K i * (dy i t - dG i) - D i * (dyd i t * d_tau s)) / (M i * d_tau s) - dydd i t * d_tau s
  = (2 * (sqrt (K i / M i)) * M i - D i) * dyd i t / M i.
Proof.
  intros Hi. pose proof (HM i Hi) as Hm'. pose proof (HK i Hi) as Hk'. fold (M i) in Hm'. fold (K i) in Hk'.
  set (q := sqrt (K i / M i)).
  assert (Eq : K i = M i * (q * q)).
  { unfold q. rewrite sqrt_sqrt; [field; lra|]. apply Rmult_le_pos; [trivial|left; now apply Rinv_0_lt_compat]. }
  rewrite Eq. unfold dy, dydd, dyd. unfold dW. fold (K i) (M i) q.
  field. split; lra.
Qed.

Lemma nth_app_first (u w : list R) i m : (i < m)%nat -> length u = m -> nth i (u ++ w)%list 0 = nth i u 0.
Proof. intros; apply app_nth1; lia. Qed.

Lemma d_solves :
  (forall i, (i < d_dimy s)%nat -> par_val (d_damp s) i = 2 * sqrt (par_val (d_mass s) i * par_val (d_spring s) i)) ->
  (d_tau s = 1 \/ forall i, (i < d_dimy s)%nat -> dZ i = 0) ->
  solves (d_diffeq s) (d_ana s) (d_init s) dX dXd.
Proof.
  intros Hcrit Hrest.
  assert (Hc : forall i, (i < d_dimy s)%nat -> 2 * sqrt (K i / M i) * M i - D i = 0).
  { intros i Hi. pose proof (HM i Hi) as Hm'. pose proof (HK i Hi) as Hk'. fold (M i) in Hm'. fold (K i) in Hk'.
    unfold D. rewrite Hcrit by trivial. fold (K i) (M i).
    replace (M i * K i) with ((M i * M i) * (K i / M i)) by (field; lra).
    rewrite sqrt_mult_alt by nra. rewrite sqrt_square by lra. ring. }
  repeat split.
  - apply d_ana_ok.
  - unfold dX. rewrite (list_eq_map_nth 0 (d_init s)), Hinit.
    replace (2 * d_dimy s)%nat with (d_dimy s + d_dimy s)%nat by lia. rewrite seq_app, map_app. f_equal.
    + apply map_ext. intros i. unfold dy. rewrite !Rmult_0_r, exp_0. unfold dA. ring.
    + change (0 + d_dimy s)%nat with (d_dimy s).
      assert (E : forall a b c, seq (a + b) c = map (fun i => (a + i)%nat) (seq b c)).
      { intros a b c. revert b; induction c; intros b; cbn; [reflexivity|]. f_equal. rewrite <- IHc. f_equal. lia. }
      replace (seq (d_dimy s) (d_dimy s)) with (map (fun i => (d_dimy s + i)%nat) (seq 0 (d_dimy s)))
        by (rewrite <- E; f_equal; lia).
      rewrite map_map. apply map_ext_in. intros i Hi. apply in_seq in Hi.
      unfold dyd. rewrite !Rmult_0_r, exp_0. fold (dZ i). unfold dB.
      replace ((dZ i + dW i * dA i - dW i * (dA i + 0)) * 1 * d_tau s) with (dZ i * d_tau s) by ring.
      destruct Hrest as [->|Hz]; [ring|]. rewrite Hz by lia. ring.
  - apply dX_length.
  - apply dXd_length.
  - intros t d Hlt. rewrite Hinit in Hlt. apply is_derive_Reals. unfold comp.
    destruct (Nat.lt_ge_cases d (d_dimy s)) as [L|L].
    + apply (is_derive_ext (dy d)).
      { intros u. unfold dX. rewrite app_nth1 by (rewrite map_length, seq_length; lia). now rewrite nth_map_seq. }
      unfold dXd. rewrite app_nth1 by (rewrite map_length, seq_length; lia). rewrite nth_map_seq by lia.
      unfold dy, dyd. auto_derive; [trivial|]. ring.
    + apply (is_derive_ext (fun u => dyd (d - d_dimy s) u * d_tau s)).
      { intros u. unfold dX. rewrite app_nth2 by (rewrite map_length, seq_length; lia).
        rewrite map_length, seq_length, nth_map_seq by lia. reflexivity. }
      unfold dXd. rewrite app_nth2 by (rewrite map_length, seq_length; lia).
      rewrite map_length, seq_length, nth_map_seq by lia.
      unfold dyd, dydd. auto_derive; [trivial|]. ring.
  - intros t. unfold dX. rewrite d_diffeq_ok by (now rewrite map_length, seq_length).
    unfold dXd. rewrite map_map. f_equal. f_equal.
    + apply map_ext. intros i. field. trivial.
    + apply map_ext_in. intros i Hi. apply in_seq in Hi. rewrite !nth_map_seq by lia.
      apply Rminus_diag_uniq. fold (K i) (M i) (D i). rewrite d_residual by lia. rewrite Hc by lia.
      unfold Rdiv. ring.
Qed.

Lemma comp_dX i t : (i < d_dimy s)%nat -> comp dX i t = dy i t.
Proof.
  intros Hi. unfold comp, dX. rewrite app_nth1 by (rewrite map_length, seq_length; lia). now rewrite nth_map_seq.
Qed.

Lemma dW_pos i : (i < d_dimy s)%nat -> 0 < par_val (d_spring s) i -> 0 < d_tau s -> 0 < dW i.
Proof.
  intros Hi Hp Ht. unfold dW. apply Rdiv_lt_0_compat; [|trivial]. apply sqrt_lt_R0.
  apply Rdiv_lt_0_compat; [trivial|now apply HM].
Qed.

Lemma d_tends i : (i < d_dimy s)%nat -> 0 < par_val (d_spring s) i -> 0 < d_tau s ->
  tends_to (comp dX i) (dG i).
Proof.
  intros Hi Hp Ht eps He. pose proof (dW_pos i Hi Hp Ht) as HW.
  set (c := Rabs (dA i) + Rabs (dB i) * (2 / dW i) + 1).
  assert (H2w : 0 < 2 / dW i) by (apply Rdiv_lt_0_compat; lra).
  pose proof (Rabs_pos (dA i)). pose proof (Rabs_pos (dB i)).
  assert (Hc : 0 < c) by (unfold c; nra).
  destruct (exp_tends (dW i / 2)) with (eps := eps / c) as [T [HT0 HT]]; [lra|now apply Rdiv_lt_0_compat|].
  exists T. intros t Hlt. specialize (HT t Hlt). rewrite comp_dX by trivial. unfold dy.
  replace (dG i + (dA i + dB i * t) * exp (- dW i * t) - dG i) with ((dA i + dB i * t) * exp (- dW i * t)) by ring.
  replace (exp (- dW i * t)) with (exp (- (dW i / 2) * t) * exp (- (dW i / 2) * t))
    by (rewrite <- exp_plus; f_equal; field).
  set (e := exp (- (dW i / 2) * t)) in *. assert (He0 : 0 < e) by apply exp_pos.
  assert (Ht0 : 0 <= t) by lra.
  assert (He1 : e <= 1).
  { unfold e. rewrite <- exp_0. destruct (Req_dec t 0) as [->|]; [rewrite Rmult_0_r; lra|]. left; apply exp_increasing. nra. }
  assert (Hte : t * e <= 2 / dW i).
  { pose proof (exp_ge_1p (dW i / 2 * t)) as E.
    assert (Ee : e * exp (dW i / 2 * t) = 1) by (unfold e; rewrite <- exp_plus, <- exp_0; f_equal; ring).
    assert (e * (1 + dW i / 2 * t) <= 1) by (rewrite <- Ee; apply Rmult_le_compat_l; lra).
    apply (Rmult_le_reg_r (dW i / 2)); [lra|].
    replace (2 / dW i * (dW i / 2)) with 1 by (field; lra). nra. }
  rewrite Rabs_mult, (Rabs_pos_eq (e * e)) by (apply Rmult_le_pos; lra).
  assert (Q : Rabs (dA i + dB i * t) * e <= c).
  { apply Rle_trans with ((Rabs (dA i) + Rabs (dB i) * t) * e).
    - apply Rmult_le_compat_r; [lra|]. eapply Rle_trans; [apply Rabs_triang|].
      rewrite Rabs_mult, (Rabs_pos_eq t) by trivial. lra.
    - unfold c. rewrite Rmult_plus_distr_r. rewrite Rmult_assoc.
      assert (Rabs (dA i) * e <= Rabs (dA i)) by nra.
      assert (Rabs (dB i) * (t * e) <= Rabs (dB i) * (2 / dW i)) by now apply Rmult_le_compat_l. lra. }
  rewrite <- Rmult_assoc. apply Rle_lt_trans with (c * e); [apply Rmult_le_compat_r; lra|].
  apply (Rmult_lt_compat_l c) in HT; [|trivial]. replace (c * (eps / c)) with eps in HT by (field; lra). exact HT.
Qed.

Lemma d_approaches i : (i < d_dimy s)%nat -> 0 < par_val (d_spring s) i -> 0 < d_tau s -> dZ i = 0 ->
  approaches (comp dX i) (dG i).
Proof.
  intros Hi Hp Ht Hz. pose proof (dW_pos i Hi Hp Ht) as HW.
  assert (E : forall t, comp dX i t - dG i = dA i * ((1 + dW i * t) * exp (- dW i * t))).
  { intros t. rewrite comp_dX by trivial. unfold dy, dB. rewrite Hz. ring. }
  assert (P : forall t, 0 <= t -> 0 <= (1 + dW i * t) * exp (- dW i * t)).
  { intros t H0. apply Rmult_le_pos; [nra|]. left; apply exp_pos. }
  split.
  - intros a b [H0 Hab]. rewrite !E, !Rabs_mult. rewrite <- !Rabs_mult.
    rewrite (Rabs_mult (dA i)), (Rabs_mult (dA i)).
    apply Rmult_le_compat_l; [apply Rabs_pos|]. rewrite !Rabs_pos_eq by (apply P; lra).
    pose proof (exp_ge_1p (dW i * (b - a))) as L.
    replace (exp (- dW i * a)) with (exp (dW i * (b - a)) * exp (- dW i * b)) by (rewrite <- exp_plus; f_equal; ring).
    rewrite <- Rmult_assoc. apply Rmult_le_compat_r; [left; apply exp_pos|].
    apply Rle_trans with ((1 + dW i * a) * (1 + dW i * (b - a))).
    + assert (0 <= dW i * a) by (apply Rmult_le_pos; lra). assert (0 <= dW i * (b - a)) by (apply Rmult_le_pos; lra). nra.
    + apply Rmult_le_compat_l; [|trivial]. assert (0 <= dW i * a) by (apply Rmult_le_pos; lra). lra.
  - intros a b H1 H2. rewrite !E.
    replace (dA i * ((1 + dW i * a) * exp (- dW i * a)) * (dA i * ((1 + dW i * b) * exp (- dW i * b))))
      with (Rsqr (dA i) * (((1 + dW i * a) * exp (- dW i * a)) * ((1 + dW i * b) * exp (- dW i * b)))) by (unfold Rsqr; ring).
    apply Rmult_le_pos; [apply Rle_0_sqr|]. apply Rmult_le_pos; now apply P.
Qed.
End Spring.

