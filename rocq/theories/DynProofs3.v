(** Proofs: Richards systems. *)
From Verif Require Import Base BaseLemmas DynModel DynSpec DynProofs.
From Coquelicot Require Import Coquelicot.

Ltac nz := repeat split; first [assumption | apply Rgt_not_eq; assumption | lra].

Lemma npow_pos x y : 0 < x -> npow x y = Ok (Rpower x y).
Proof. intros H; unfold npow; destruct (Rlt_dec 0 x); [reflexivity|contradiction]. Qed.

Lemma Rpower_pos x y : 0 < Rpower x y.
Proof. apply exp_pos. Qed.

Lemma ln_le_minus x : 0 < x -> ln x <= x - 1.
Proof.
  intros H. destruct (Rle_lt_dec (ln x) (x - 1)) as [?|L]; [trivial|].
  apply exp_increasing in L. rewrite exp_ln in L by trivial.
  pose proof (exp_ineq1_le (x - 1)). lra.
Qed.

Lemma exp_ge_1p x : 1 + x <= exp x.
Proof. apply exp_ineq1_le. Qed.

(** ** one dimension *)
Section Dim.
Variables tau alpha v a k x0 : R.
Hypothesis Htau : tau <> 0.
Hypothesis Hv : 0 < v.
Hypothesis Hin : 0 < (x0 - a) / (k - a) <= 1.

Definition rP := Rpower ((k - a) / (x0 - a)) v.
Definition rQ := -1 + rP.
Definition rD t := 1 + rQ * exp (- alpha * v * t / tau).
Definition rX t := (k - a) / Rpower (rD t) (1 / v) + a.
Definition rXd t := rQ * alpha * (k - a) * (exp (- alpha * v * t / tau) / Rpower (rD t) (1 + 1 / v)) / tau.

Lemma ka_nz : k - a <> 0.
Proof. intros E. unfold Rdiv in Hin. rewrite E, Rinv_0, Rmult_0_r in Hin. lra. Qed.
Lemma xa_nz : x0 - a <> 0.
Proof. intros E. unfold Rdiv in Hin. rewrite E, Rmult_0_l in Hin. lra. Qed.
Lemma ratio_inv : (k - a) / (x0 - a) = / ((x0 - a) / (k - a)).
Proof. pose proof ka_nz; pose proof xa_nz. field; split; trivial. Qed.
Lemma ratio_ge1 : 1 <= (k - a) / (x0 - a).
Proof. rewrite ratio_inv, <- Rinv_1. apply Rinv_le_contravar; lra. Qed.
Lemma rP_ge1 : 1 <= rP.
Proof.
  unfold rP, Rpower. rewrite <- exp_0. pose proof ratio_ge1.
  assert (0 <= ln ((k - a) / (x0 - a))) by (rewrite <- ln_1; apply ln_le; lra).
  assert (0 <= v * ln ((k - a) / (x0 - a))) by (apply Rmult_le_pos; lra).
  destruct H1 as [H1|<-]; [left; now apply exp_increasing|lra].
Qed.
Lemma rQ_nonneg : 0 <= rQ.
Proof. pose proof rP_ge1; unfold rQ; lra. Qed.
Lemma rD_ge1 t : 1 <= rD t.
Proof. pose proof rQ_nonneg. pose proof (exp_pos (- alpha * v * t / tau)). unfold rD. nra. Qed.

Lemma r_ana_at_ok t : r_ana_at tau alpha v a k x0 t = Ok (rX t, rXd t).
Proof.
  unfold r_ana_at. pose proof xa_nz. pose proof ratio_ge1. pose proof (rD_ge1 t).
  destruct (Req_EM_T (x0 - a) 0); [contradiction|].
  rewrite npow_pos by lra. cbn [bind]. destruct (Req_EM_T tau 0); [contradiction|].
  destruct (Req_EM_T v 0); [lra|]. fold rP rQ. fold (rD t).
  rewrite npow_pos by lra. cbn [bind]. rewrite npow_pos by lra. cbn [bind].
  destruct (Req_EM_T (Rpower (rD t) (1 / v)) 0) as [E|]; [pose proof (Rpower_pos (rD t) (1 / v)); lra|].
  destruct (Req_EM_T (Rpower (rD t) (1 + 1 / v)) 0) as [E|]; [pose proof (Rpower_pos (rD t) (1 + 1 / v)); lra|].
  reflexivity.
Qed.

Lemma rX_start : rX 0 = x0.
Proof.
  pose proof ka_nz; pose proof xa_nz. unfold rX, rD. 
  replace (- alpha * v * 0 / tau) with 0 by (field; trivial). rewrite exp_0.
  replace (1 + rQ * 1) with rP by (unfold rQ; ring). unfold rP. rewrite Rpower_mult.
  replace (v * (1 / v)) with 1 by (field; lra). rewrite Rpower_1 by (pose proof ratio_ge1; lra).
  field. split; trivial.
Qed.

Lemma rX_ratio t : (rX t - a) / (k - a) = Rpower (rD t) (- (1 / v)).
Proof.
  pose proof ka_nz. pose proof (Rpower_pos (rD t) (1 / v)). unfold rX. rewrite Rpower_Ropp. field; nz.
Qed.

Lemma rXd_eq t : rXd t = alpha * (1 - / rD t) * (rX t - a) / tau.
Proof.
  pose proof (rD_ge1 t). pose proof (Rpower_pos (rD t) (1 / v)).
  unfold rXd, rX. rewrite Rpower_plus, Rpower_1 by lra.
  replace (rQ * alpha * (k - a) * (exp (- alpha * v * t / tau) / (rD t * Rpower (rD t) (1 / v))) / tau)
    with (alpha * (k - a) * ((rQ * exp (- alpha * v * t / tau)) / (rD t * Rpower (rD t) (1 / v))) / tau)
    by (field; nz).
  replace (rQ * exp (- alpha * v * t / tau)) with (rD t - 1) by (unfold rD; ring).
  field; nz.
Qed.

Lemma rX_pow t : npow ((rX t - a) / (k - a)) v = Ok (/ rD t).
Proof.
  rewrite rX_ratio. rewrite npow_pos by apply Rpower_pos. rewrite Rpower_mult.
  replace (- (1 / v) * v) with (- (1)) by (field; lra). rewrite Rpower_Ropp, Rpower_1; [reflexivity|].
  pose proof (rD_ge1 t); lra.
Qed.

Lemma rX_derive t : is_derive rX t (rXd t).
Proof.
  pose proof (rD_ge1 t) as HD. pose proof (Rpower_pos (rD t) (1 / v)) as HP.
  unfold rX, rXd. unfold Rpower. unfold rD in *.
  auto_derive.
  - split; [unfold Rdiv in *; lra|]. split; [|trivial]. apply Rgt_not_eq, exp_pos.
  - set (e := exp (- alpha * v * t * / tau)). change (exp (- alpha * v * t / tau)) with e in *.
    set (E := exp (1 * / v * ln (1 + rQ * e))).
    replace (exp ((1 + 1 / v) * ln (1 + rQ * e))) with ((1 + rQ * e) * E).
    + assert (0 < E) by apply exp_pos. change (exp (1 / v * ln (1 + rQ * e))) with E. field; nz.
    + unfold E. replace ((1 + 1 / v) * ln (1 + rQ * e)) with (ln (1 + rQ * e) + 1 * / v * ln (1 + rQ * e)) by (field; lra). rewrite exp_plus, exp_ln by lra. reflexivity.
Qed.

Section Converge.
Hypothesis Ha : 0 < alpha / tau.
Let c := alpha / tau * v.
Lemma c_pos : 0 < c.
Proof. unfold c; now apply Rmult_lt_0_compat. Qed.
Lemma exp_c t : exp (- alpha * v * t / tau) = exp (- c * t).
Proof. f_equal. unfold c. field. trivial. Qed.

Lemma rX_dist t : rX t - k = - (k - a) * (1 - Rpower (rD t) (- (1 / v))).
Proof.
  rewrite <- rX_ratio. pose proof ka_nz. field. trivial.
Qed.

Lemma gap_bounds t : 0 <= 1 - Rpower (rD t) (- (1 / v)) <= rQ / v * exp (- c * t).
Proof.
  pose proof (rD_ge1 t) as HD. unfold Rpower.
  assert (L : 0 <= ln (rD t)) by (rewrite <- ln_1; apply ln_le; lra).
  assert (L' : ln (rD t) <= rD t - 1) by (apply ln_le_minus; lra).
  assert (V : 0 < / v) by now apply Rinv_0_lt_compat.
  split.
  - assert (exp (- (1 / v) * ln (rD t)) <= 1); [|lra]. apply Rle_trans with (exp 0); [|rewrite exp_0; lra].
    assert (- (1 / v) * ln (rD t) <= 0).
    { assert (0 <= 1 / v * ln (rD t)) by (apply Rmult_le_pos; [unfold Rdiv; lra|trivial]). lra. }
    destruct H as [H|H]; [left; now apply exp_increasing|rewrite H; lra].
  - pose proof (exp_ge_1p (- (1 / v) * ln (rD t))).
    assert (1 / v * ln (rD t) <= 1 / v * (rD t - 1)) by (apply Rmult_le_compat_l; [unfold Rdiv; lra|trivial]).
    replace (rQ / v * exp (- c * t)) with (1 / v * (rD t - 1)); [lra|].
    unfold rD. rewrite exp_c. field. lra.
Qed.

Lemma rX_tends : tends_to rX k.
Proof.
  intros eps He. set (w := Rabs (k - a) * (rQ / v) + 1).
  pose proof rQ_nonneg as HQ. assert (V : 0 < / v) by now apply Rinv_0_lt_compat.
  assert (Q : 0 <= rQ / v) by (apply Rmult_le_pos; lra).
  pose proof (Rabs_pos (k - a)) as HA.
  assert (W : 0 < w) by (unfold w; nra).
  destruct (exp_tends c c_pos (eps / w)) as [T [_ HT]]; [now apply Rdiv_lt_0_compat|].
  exists T. intros t Ht. specialize (HT t Ht). rewrite rX_dist.
  pose proof (gap_bounds t) as [G1 G2].
  rewrite Rabs_mult, Rabs_Ropp, (Rabs_pos_eq (1 - _)) by trivial.
  apply (Rmult_lt_compat_l w) in HT; [|trivial].
  replace (w * (eps / w)) with eps in HT by (field; lra). unfold w in HT.
  pose proof (exp_pos (- c * t)).
  assert (Rabs (k - a) * (1 - Rpower (rD t) (- (1 / v))) <= Rabs (k - a) * (rQ / v * exp (- c * t)))
    by now apply Rmult_le_compat_l. nra.
Qed.

Lemma rX_approaches : approaches rX k.
Proof.
  split; intros s t.
  - intros [_ Hst]. rewrite !rX_dist.
    rewrite !Rabs_mult, !(Rabs_pos_eq (1 - _)) by apply gap_bounds.
    apply Rmult_le_compat_l; [apply Rabs_pos|].
    assert (Rpower (rD s) (- (1 / v)) <= Rpower (rD t) (- (1 / v))); [|lra].
    rewrite !Rpower_Ropp. apply Rinv_le_contravar; [apply Rpower_pos|].
    apply Rle_Rpower_l; [|split].
    + left. apply Rdiv_lt_0_compat; lra.
    + pose proof (rD_ge1 t); lra.
    + unfold rD. rewrite !exp_c. pose proof (exp_decr c s t c_pos Hst). pose proof rQ_nonneg. nra.
  - intros _ _. rewrite !rX_dist. pose proof (gap_bounds s) as [G _]. pose proof (gap_bounds t) as [G' _].
    replace (- (k - a) * (1 - Rpower (rD s) (- (1 / v))) * (- (k - a) * (1 - Rpower (rD t) (- (1 / v)))))
      with (Rsqr (k - a) * ((1 - Rpower (rD s) (- (1 / v))) * (1 - Rpower (rD t) (- (1 / v))))) by (unfold Rsqr; ring).
    apply Rmult_le_pos; [apply Rle_0_sqr|]. now apply Rmult_le_pos.
Qed.
End Converge.

(** the rate of change is largest where rD = 1 + v *)
Lemma rate_shape w : 0 < w <= 1 -> Rpower w (1 / v) * (1 - w) <= Rpower (/ (1 + v)) (1 / v) * (1 - / (1 + v)).
Proof.
  intros [Hw Hw1]. destruct Hw1 as [Hw1| ->].
  2:{ rewrite Rminus_eq_0, Rmult_0_r. apply Rmult_le_pos; [left; apply Rpower_pos|].
      assert (/ (1 + v) <= 1); [|lra]. rewrite <- Rinv_1. apply Rinv_le_contravar; lra. }
  assert (V : 0 < / (1 + v)) by (apply Rinv_0_lt_compat; lra).
  assert (E1 : 1 - / (1 + v) = v / (1 + v)) by (field; lra).
  assert (E2 : 0 < v / (1 + v)) by (apply Rdiv_lt_0_compat; lra).
  rewrite E1.
  replace (1 - w) with (exp (ln (1 - w))) by (apply exp_ln; lra).
  replace (v / (1 + v)) with (exp (ln (v / (1 + v)))) by (apply exp_ln; trivial).
  unfold Rpower. rewrite <- !exp_plus.
  assert (L1 : ln w - ln (/ (1 + v)) <= (1 + v) * w - 1).
  { rewrite ln_Rinv by lra. replace (ln w - - ln (1 + v)) with (ln (1 + v) + ln w) by ring.
    rewrite <- ln_mult by lra. apply ln_le_minus. nra. }
  assert (L2 : ln (1 - w) - ln (v / (1 + v)) <= (1 - w) * ((1 + v) / v) - 1).
  { replace (ln (1 - w) - ln (v / (1 + v))) with (ln ((1 - w) * ((1 + v) / v))).
    - apply ln_le_minus. apply Rmult_lt_0_compat; [lra|]. apply Rdiv_lt_0_compat; lra.
    - rewrite ln_mult; [|lra|apply Rdiv_lt_0_compat; lra].
      replace ((1 + v) / v) with (/ (v / (1 + v))) by (field; lra). rewrite ln_Rinv by trivial. ring. }
  assert (S : 1 / v * ln w + ln (1 - w) <= 1 / v * ln (/ (1 + v)) + ln (v / (1 + v))).
  { assert (0 < 1 / v) by (apply Rdiv_lt_0_compat; lra).
    apply (Rmult_le_compat_l (1 / v)) in L1; [|lra].
    assert (1 / v * ((1 + v) * w - 1) + ((1 - w) * ((1 + v) / v) - 1) = 0) by (field; lra). lra. }
  destruct S as [S|S]; [left; now apply exp_increasing|rewrite S; lra].
Qed.

Lemma rate_max T t : rQ * exp (- alpha * v * T / tau) = v -> Rabs (rXd t) <= Rabs (rXd T).
Proof.
  intros HT. rewrite !rXd_eq.
  assert (E : forall u, alpha * (1 - / rD u) * (rX u - a) / tau
                        = (alpha * (k - a) / tau) * (Rpower (/ rD u) (1 / v) * (1 - / rD u))).
  { intros u. pose proof (rD_ge1 u). pose proof ka_nz.
    replace (Rpower (/ rD u) (1 / v)) with ((rX u - a) / (k - a)).
    - field; nz.
    - rewrite rX_ratio. rewrite <- (Rpower_1 (rD u)) at 2 by lra. rewrite <- Rpower_Ropp, Rpower_mult.
      f_equal. ring. }
  rewrite !E, !(Rabs_mult (alpha * (k - a) / tau)). apply Rmult_le_compat_l; [apply Rabs_pos|].
  assert (B : forall u, 0 < / rD u <= 1).
  { intros u. pose proof (rD_ge1 u). split; [apply Rinv_0_lt_compat; lra|]. rewrite <- Rinv_1. apply Rinv_le_contravar; lra. }
  rewrite !Rabs_pos_eq.
  - replace (rD T) with (1 + v) by (unfold rD; rewrite HT; reflexivity). now apply rate_shape.
  - apply Rmult_le_pos; [left; apply Rpower_pos|]. pose proof (B T); lra.
  - apply Rmult_le_pos; [left; apply Rpower_pos|]. pose proof (B t); lra.
Qed.
End Dim.

(** ** the left asymptote computed by the system *)
Section Left.
Variables tau infl alpha v x0 k : R.
Hypothesis Htau : tau <> 0.
Hypothesis Hv : 0 < v.
Hypothesis Hne : x0 <> k.
Let e := exp (- alpha * v * Rmax 0 (tau * infl) / tau).
Definition rZ := Rpower (v / e + 1) (1 / v).
Definition rLeft := (rZ * x0 - k) / (rZ - 1).

Lemma ve_pos : 0 < v / e.
Proof. apply Rdiv_lt_0_compat; [trivial|apply exp_pos]. Qed.
Lemma rZ_gt1 : 1 < rZ.
Proof.
  pose proof ve_pos. unfold rZ, Rpower. apply Rle_lt_trans with (exp 0); [rewrite exp_0; lra|]. apply exp_increasing.
  apply Rmult_lt_0_compat; [apply Rdiv_lt_0_compat; lra|]. rewrite <- ln_1. apply ln_increasing; lra.
Qed.
Lemma r_left_at_ok : r_left_at tau infl alpha v x0 k = Ok rLeft.
Proof.
  unfold r_left_at. destruct (Req_EM_T tau 0); [contradiction|]. fold e.
  pose proof ve_pos. rewrite npow_pos by lra. cbn [bind]. fold rZ. pose proof rZ_gt1.
  destruct (Req_EM_T (rZ - 1) 0); [lra|reflexivity].
Qed.
Lemma left_ratio : (x0 - rLeft) / (k - rLeft) = / rZ.
Proof.
  pose proof rZ_gt1. unfold rLeft.
  assert (N : k * (rZ - 1) - (rZ * x0 - k) <> 0).
  { replace (k * (rZ - 1) - (rZ * x0 - k)) with (rZ * (k - x0)) by ring.
    apply Rmult_integral_contrapositive_currified; lra. }
  field; nz.
Qed.
Lemma left_in : 0 < (x0 - rLeft) / (k - rLeft) <= 1.
Proof.
  rewrite left_ratio. pose proof rZ_gt1. split; [apply Rinv_0_lt_compat; lra|]. rewrite <- Rinv_1. apply Rinv_le_contravar; lra.
Qed.
Lemma left_Q : rQ v rLeft k x0 = v / e.
Proof.
  unfold rQ, rP. rewrite (ratio_inv rLeft k x0 left_in), left_ratio, Rinv_inv.
  unfold rZ. rewrite Rpower_mult. replace (1 / v * v) with 1 by (field; lra).
  pose proof ve_pos. rewrite Rpower_1 by lra. ring.
Qed.
Lemma left_infl : rQ v rLeft k x0 * exp (- alpha * v * Rmax 0 (tau * infl) / tau) = v.
Proof. rewrite left_Q. fold e. field. apply Rgt_not_eq, exp_pos. Qed.
End Left.

(** ** the system *)
Section Sys.
Variable s : rsys.
Let n := length (h_init s).
Variables al v a k x0 : nat -> R.
Hypothesis Htau : h_tau s <> 0.
Hypothesis Hat : forall i, (i < n)%nat -> r_at s i = Ok (al i, v i, a i, k i, x0 i).
Hypothesis Hx0 : forall i, (i < n)%nat -> x0 i = nth i (h_init s) 0.
Hypothesis Hv : forall i, (i < n)%nat -> 0 < v i.
Hypothesis Hin : forall i, (i < n)%nat -> 0 < (x0 i - a i) / (k i - a i) <= 1.

Definition rsX t := map (fun i => rX (h_tau s) (al i) (v i) (a i) (k i) (x0 i) t) (seq 0 (length (h_init s))).
Definition rsXd t := map (fun i => rXd (h_tau s) (al i) (v i) (a i) (k i) (x0 i) t) (seq 0 (length (h_init s))).

Lemma r_ana_ok ts : r_ana s ts = Ok (map rsX ts, map rsXd ts).
Proof.
  unfold r_ana.
  rewrite (mapM_pure _ (fun t => map (fun i => (rX (h_tau s) (al i) (v i) (a i) (k i) (x0 i) t,
                                       rXd (h_tau s) (al i) (v i) (a i) (k i) (x0 i) t)) (seq 0 (length (h_init s))))).
  - cbn [bind]. rewrite !map_map. f_equal. f_equal; apply map_ext; intros t; rewrite map_map; reflexivity.
  - intros t _. apply mapM_pure. intros i Hi. apply in_seq in Hi. rewrite Hat by (unfold n; lia). cbn [bind].
    apply r_ana_at_ok; [trivial|apply Hv|apply Hin]; unfold n; lia.
Qed.

Lemma r_diffeq_ok t : r_diffeq s (rsX t) = Ok (rsXd t).
Proof.
  unfold r_diffeq. assert (L : length (rsX t) = n) by (unfold rsX; now rewrite map_length, seq_length).
  rewrite L. fold n. rewrite Nat.eqb_refl. unfold rsXd. fold n. apply mapM_pure. intros i Hi. apply in_seq in Hi.
  rewrite Hat by lia. cbn [bind]. rewrite (nth_res_ok _ _ 0) by lia. cbn [bind].
  replace (nth i (rsX t) 0) with (rX (h_tau s) (al i) (v i) (a i) (k i) (x0 i) t)
    by (unfold rsX; rewrite nth_map_seq by (unfold n in Hi; lia); reflexivity).
  destruct (Req_EM_T (k i - a i) 0) as [E|]; [exfalso; revert E; apply (ka_nz _ _ (x0 i)); apply Hin; lia|].
  rewrite rX_pow; [|apply Hv; lia|apply Hin; lia]. cbn [bind].
  destruct (Req_EM_T (h_tau s) 0); [contradiction|]. f_equal. symmetry. apply rXd_eq; [trivial|apply Hv|apply Hin]; lia.
Qed.

Lemma r_solves : solves (r_diffeq s) (r_ana s) (h_init s) rsX rsXd.
Proof.
  repeat split.
  - apply r_ana_ok.
  - unfold rsX. etransitivity; [|symmetry; apply (list_eq_map_nth 0)]. apply map_ext_in. intros i Hi. apply in_seq in Hi.
    rewrite rX_start; [apply Hx0|trivial|apply Hv|apply Hin]; unfold n; lia.
  - intros t; unfold rsX; now rewrite map_length, seq_length.
  - intros t; unfold rsXd; now rewrite map_length, seq_length.
  - intros t d Hd. apply is_derive_Reals. unfold comp, rsXd. rewrite nth_map_seq by trivial.
    apply (is_derive_ext (rX (h_tau s) (al d) (v d) (a d) (k d) (x0 d))).
    { intros u. unfold rsX. now rewrite nth_map_seq. }
    apply rX_derive; [trivial|apply Hv|apply Hin]; exact Hd.
  - apply r_diffeq_ok.
Qed.

Lemma tends_to_ext f g l : (forall t, f t = g t) -> tends_to f l -> tends_to g l.
Proof. intros E H eps He. destruct (H eps He) as [T HT]. exists T. intros t Ht. rewrite <- E. now apply HT. Qed.
Lemma approaches_ext f g l : (forall t, f t = g t) -> approaches f l -> approaches g l.
Proof. intros E [H1 H2]. split; intros; rewrite <- !E; auto. Qed.

Lemma comp_rsX d t : (d < n)%nat -> rX (h_tau s) (al d) (v d) (a d) (k d) (x0 d) t = comp rsX d t.
Proof. intros Hd. unfold comp, rsX. rewrite nth_map_seq by exact Hd. reflexivity. Qed.

Lemma r_converges d : (d < n)%nat -> 0 < al d / h_tau s ->
  tends_to (comp rsX d) (k d) /\ approaches (comp rsX d) (k d).
Proof.
  intros Hd Ha. split.
  - eapply tends_to_ext; [intros t; apply (comp_rsX d t Hd)|]. apply rX_tends; auto.
  - eapply approaches_ext; [intros t; apply (comp_rsX d t Hd)|]. apply rX_approaches; auto.
Qed.

Lemma r_max_rate d T t : (d < n)%nat ->
  rQ (v d) (a d) (k d) (x0 d) * exp (- al d * v d * T / h_tau s) = v d ->
  Rabs (comp rsXd d t) <= Rabs (comp rsXd d T).
Proof.
  intros Hd HT. unfold comp, rsXd. rewrite !nth_map_seq by exact Hd. apply rate_max; auto.
Qed.
End Sys.

(** left asymptote computed from the inflection ratio *)
Definition val_v (s : rsys) i := match h_left s with None => Rmax 0.5 (par_val (h_v s) i) | Some _ => par_val (h_v s) i end.
Definition val_a (s : rsys) i :=
  match h_left s with
  | Some p => par_val p i
  | None => rLeft (h_tau s) (par_val (h_infl s) i) (par_val (h_alpha s) i) (val_v s i) (nth i (h_init s) 0) (par_val (h_right s) i)
  end.

Lemma par_val_pmap f p n i : par_ok p n -> (i < n)%nat -> par_val (pmap f p) i = f (par_val p i).
Proof. destruct p; cbn; intros; [reflexivity|]. apply nth_map_lt. lia. Qed.
Lemma par_ok_pmap f p n : par_ok p n -> par_ok (pmap f p) n.
Proof. destruct p; cbn; trivial. now rewrite map_length. Qed.

Lemma r_at_ok s i : richards_ok s -> h_tau s <> 0 -> (i < length (h_init s))%nat ->
  r_at s i = Ok (par_val (h_alpha s) i, val_v s i, val_a s i, par_val (h_right s) i, nth i (h_init s) 0).
Proof.
  intros (H1 & H2 & H3 & H4 & H5) Ht Hi. unfold r_at, r_v, val_a, val_v.
  rewrite (par_at_ok _ _ _ H3 Hi). cbn [bind].
  destruct (h_left s) as [p|] eqn:El.
  - rewrite (par_at_ok _ _ _ H4 Hi). cbn [bind]. rewrite (par_at_ok _ _ _ H1 Hi). cbn [bind].
    rewrite (nth_res_ok _ _ 0) by trivial. cbn [bind]. rewrite (par_at_ok _ _ _ H5 Hi). reflexivity.
  - rewrite (par_at_ok _ (length (h_init s))) by (trivial; now apply par_ok_pmap). cbn [bind].
    rewrite (par_val_pmap _ _ _ _ H4 Hi).
    rewrite (par_at_ok _ _ _ H1 Hi). cbn [bind].
    rewrite (nth_res_ok _ _ 0) by trivial. cbn [bind]. rewrite (par_at_ok _ _ _ H2 Hi). cbn [bind].
    rewrite r_left_at_ok; [reflexivity|trivial|].
    eapply Rlt_le_trans; [|apply Rmax_l]. lra.
Qed.
