(** Numerical integration: the error of Euler and Runge-Kutta steps on vector fields that are
    Lipschitz on bounded sets. *)
From Verif Require Import Base BaseLemmas DynModel DynSpec DynProofs DynProofs3 DynProofs5.
Open Scope R_scope.

Lemma Rabs_tri3 a b c : Rabs (a + b + c) <= Rabs a + Rabs b + Rabs c.
Proof. pose proof (Rabs_triang (a + b) c). pose proof (Rabs_triang a b). lra. Qed.
Lemma Rabs_sub_le a b : Rabs a <= Rabs b + Rabs (a - b).
Proof. replace a with (b + (a - b)) at 1 by ring. apply Rabs_triang. Qed.
Lemma Rabs_mult_le a b A B : Rabs a <= A -> Rabs b <= B -> Rabs (a * b) <= A * B.
Proof. intros. rewrite Rabs_mult. apply Rmult_le_compat; trivial; apply Rabs_pos. Qed.

Lemma Rabs_between a b : Rabs a <= b -> - b <= a <= b.
Proof. intros H. pose proof (Rle_abs a). pose proof (Rle_abs (- a)) as Q. rewrite Rabs_Ropp in Q. lra. Qed.

Section Global.
Variable n : nat.
Variable F : list R -> list R.
Hypothesis FL : forall x, length x = n -> length (F x) = n.
(** components whose rate is not continuous; their error is known by other means *)
Variable irr : nat -> bool.

Definition close (e : R) (x y : list R) : Prop := forall i, (i < n)%nat -> Rabs (nth i x 0 - nth i y 0) <= e.
Definition inbox (B : R) (x : list R) : Prop := length x = n /\ forall i, (i < n)%nat -> Rabs (nth i x 0) <= B.
Definition step (m : int_method) : R -> list R -> list R := match m with RungeKutta => rk4 F | Euler => euler F end.

Variables (B L M : R).
Hypothesis HL : 0 <= L.
Hypothesis HM : 0 <= M.
Hypothesis Lip : forall x y e i, inbox (B + 1) x -> inbox (B + 1) y -> close e x y -> (i < n)%nat -> irr i = false ->
  Rabs (nth i (F x) 0 - nth i (F y) 0) <= L * e.
Hypothesis Bnd : forall x i, inbox (B + 1) x -> (i < n)%nat -> Rabs (nth i (F x) 0) <= M.

(** a point near x in direction k *)
Lemma probe x k d e : inbox (B + 1/2) x -> length k = n -> (forall i, (i < n)%nat -> Rabs (nth i k 0) <= M) -> 0 <= d <= e -> e * M <= 1/2 ->
  inbox (B + 1) (axpy d x k) /\ close (e * M) (axpy d x k) x.
Proof.
  intros [Lx Hx] Lk Hk Hd He. assert (H : close (e * M) (axpy d x k) x).
  { intros i Hi. rewrite nth_axpy by lia. replace (nth i x 0 + d * nth i k 0 - nth i x 0) with (d * nth i k 0) by ring.
    apply Rabs_mult_le; [rewrite Rabs_pos_eq; lra|now apply Hk]. }
  split; [|exact H]. split; [rewrite axpy_length; lia|]. intros i Hi. pose proof (Rabs_sub_le (nth i (axpy d x k) 0) (nth i x 0)).
  specialize (H i Hi). specialize (Hx i Hi). lra.
Qed.
Lemma step_error m d x i : inbox (B + 1/2) x -> 0 <= d -> d * M <= 1/2 -> (i < n)%nat ->
  (irr i = false -> Rabs (nth i (step m d x) 0 - nth i x 0 - d * nth i (F x) 0) <= L * M * (d * d)) /\
  Rabs (nth i (step m d x) 0 - nth i x 0) <= d * M.
Proof.
  intros Hx Hd HdM Hi. pose proof Hx as [Lx _].
  assert (Hx1 : inbox (B + 1) x) by (split; [exact Lx|]; intros j Hj; destruct Hx as [_ Hx]; specialize (Hx j Hj); lra).
  assert (P0 : 0 <= L * M * (d * d)) by (apply Rmult_le_pos; apply Rmult_le_pos; lra).
  destruct m; cbn [step].
  - unfold rk4. cbv zeta. set (k1 := F x). assert (L1 : length k1 = n) by now apply FL. assert (B1 : forall i, (i < n)%nat -> Rabs (nth i k1 0) <= M) by (intros; now apply Bnd).
    destruct (probe x k1 (d / 2) d Hx L1 B1 ltac:(lra) HdM) as [I2 C2]. set (u2 := axpy (d / 2) x k1) in *.
    set (k2 := F u2). assert (L2 : length k2 = n) by (apply FL; apply I2). assert (B2 : forall i, (i < n)%nat -> Rabs (nth i k2 0) <= M) by (intros; now apply Bnd).
    destruct (probe x k2 (d / 2) d Hx L2 B2 ltac:(lra) HdM) as [I3 C3]. set (u3 := axpy (d / 2) x k2) in *.
    set (k3 := F u3). assert (L3 : length k3 = n) by (apply FL; apply I3). assert (B3 : forall i, (i < n)%nat -> Rabs (nth i k3 0) <= M) by (intros; now apply Bnd).
    destruct (probe x k3 d d Hx L3 B3 ltac:(lra) HdM) as [I4 C4]. set (u4 := axpy d x k3) in *.
    set (k4 := F u4). assert (L4 : length k4 = n) by (apply FL; apply I4). assert (B4 : forall i, (i < n)%nat -> Rabs (nth i k4 0) <= M) by (intros; now apply Bnd).
    rewrite (nth_axpy (d / 6)) by (rewrite ?axpy_length; rewrite ?axpy_length; rewrite ?axpy_length; lia).
    rewrite (nth_axpy 1) by (rewrite ?axpy_length; rewrite ?axpy_length; lia). rewrite (nth_axpy 2) by (rewrite ?axpy_length; lia). rewrite (nth_axpy 2) by lia.
    split.
    + intros Hr. assert (D2 : Rabs (nth i k2 0 - nth i k1 0) <= L * (d * M)) by now apply Lip.
      assert (D3 : Rabs (nth i k3 0 - nth i k1 0) <= L * (d * M)) by now apply Lip.
      assert (D4 : Rabs (nth i k4 0 - nth i k1 0) <= L * (d * M)) by now apply Lip.
      set (a := nth i k1 0) in *. set (b := nth i k2 0) in *. set (c := nth i k3 0) in *. set (g := nth i k4 0) in *.
      replace (nth i x 0 + d / 6 * (a + 2 * b + 2 * c + 1 * g) - nth i x 0 - d * a) with (d * ((2 * (b - a) + 2 * (c - a) + (g - a)) / 6)) by field.
      replace (L * M * (d * d)) with (d * (L * (d * M))) by ring. apply Rabs_mult_le; [rewrite Rabs_pos_eq; lra|].
      apply Rabs_le. apply Rabs_between in D2, D3, D4. lra.
    + specialize (B1 i Hi). specialize (B2 i Hi). specialize (B3 i Hi). specialize (B4 i Hi).
      match goal with |- Rabs (?y + ?c * ?s - ?y) <= _ => replace (y + c * s - y) with (d * (s / 6)) by field end.
      apply Rabs_mult_le; [rewrite Rabs_pos_eq; lra|]. apply Rabs_le. apply Rabs_between in B1, B2, B3, B4. lra.
  - unfold euler. rewrite nth_axpy by (rewrite ?FL by assumption; lia). split.
    + intros _. match goal with |- Rabs ?z <= _ => replace z with 0 by ring end. now rewrite Rabs_R0.
    + match goal with |- Rabs (?y + ?s - ?y) <= _ => replace (y + s - y) with s by ring end.
      apply Rabs_mult_le; [rewrite Rabs_pos_eq; lra|]. now apply Bnd.
Qed.
Lemma step_length m d x : length x = n -> length (step m d x) = n.
Proof.
  intros Lx. assert (P : forall c k, length k = n -> length (axpy c x k) = n) by (intros; rewrite axpy_length; lia).
  assert (Q : forall c k l, length k = n -> length l = n -> length (axpy c k l) = n) by (intros; rewrite axpy_length; lia).
  destruct m; cbn [step]; unfold rk4, euler; cbv zeta; repeat first [apply P|apply Q|apply FL|assumption].
Qed.

(** ** The error after many steps *)
Variables (X Z : nat -> list R) (t : nat -> R) (N : nat) (meth : int_method) (h c C1 T : R).
Hypothesis HC1 : 0 <= C1.
Hypothesis Hc : 0 <= c.
Hypothesis HX : forall k, (k <= N)%nat -> inbox B (X k).
Hypothesis Ht : forall k, (k < N)%nat -> 0 <= t (S k) - t k <= h.
Hypothesis HT : t N - t 0%nat <= T.
Hypothesis HZ0 : Z 0%nat = X 0%nat.
Hypothesis HZ : forall k, (k < N)%nat -> Z (S k) = step meth (t (S k) - t k) (Z k).
Hypothesis Def : forall k i, (k < N)%nat -> (i < n)%nat -> irr i = false ->
  Rabs (nth i (X (S k)) 0 - nth i (X k) 0 - (t (S k) - t k) * nth i (F (X k)) 0) <= C1 * ((t (S k) - t k) * (t (S k) - t k)).
Hypothesis Irr : forall k i, (k <= N)%nat -> (i < n)%nat -> irr i = true -> Rabs (nth i (Z k) 0 - nth i (X k) 0) <= c * h.
Let K := C1 + L * M + L * c.
Hypothesis Sm : h * M <= 1/2.
Hypothesis Sc : c * h <= 1/2.
Hypothesis Hh : 0 <= h.
Hypothesis SK : K * h * T * exp (L * T) <= 1/2.

Lemma t_mono k : (k <= N)%nat -> t 0%nat <= t k /\ t k <= t N.
Proof.
  intros Hk. assert (A : forall j, (k + j <= N)%nat -> t k <= t (k + j)%nat).
  { induction j as [|j IH]; intros Hj; [rewrite Nat.add_0_r; lra|]. specialize (IH ltac:(lia)). specialize (Ht (k + j)%nat ltac:(lia)). rewrite Nat.add_succ_r. lra. }
  split; [|replace N with (k + (N - k))%nat by lia; apply A; lia].
  clear A. induction k as [|k IH]; [lra|]. specialize (IH ltac:(lia)). specialize (Ht k ltac:(lia)). lra.
Qed.
Lemma K_nonneg : 0 <= K.
Proof. unfold K. pose proof (Rmult_le_pos L M HL HM). pose proof (Rmult_le_pos L c HL Hc). lra. Qed.
Lemma global_error k : (k <= N)%nat -> forall i, (i < n)%nat -> irr i = false ->
  Rabs (nth i (Z k) 0 - nth i (X k) 0) <= K * h * (t k - t 0%nat) * exp (L * (t k - t 0%nat)).
Proof.
  pose proof K_nonneg as HK. assert (HKh : 0 <= K * h) by now apply Rmult_le_pos.
  induction k as [|k IH]; intros Hk i Hi Hr.
  - rewrite HZ0. replace (nth i (X 0%nat) 0 - nth i (X 0%nat) 0) with 0 by ring. rewrite Rabs_R0. replace (t 0%nat - t 0%nat) with 0 by ring. rewrite Rmult_0_r, Rmult_0_l. lra.
  - specialize (IH ltac:(lia)). set (d := t (S k) - t k) in *. set (s := t k - t 0%nat) in *.
    assert (Hd : 0 <= d <= h) by (apply Ht; lia). destruct (t_mono k ltac:(lia)) as [T1 T2]. assert (Hs : 0 <= s <= T) by (unfold s; lra).
    set (e := K * h * s * exp (L * s)) in *.
    assert (He : 0 <= e) by (unfold e; apply Rmult_le_pos; [apply Rmult_le_pos; lra|left; apply exp_pos]).
    assert (He2 : e <= 1/2).
    { refine (Rle_trans _ _ _ _ SK). unfold e. apply Rmult_le_compat; [apply Rmult_le_pos; lra|left; apply exp_pos| |].
      - apply Rmult_le_compat_l; lra.
      - assert (L * s <= L * T) by (apply Rmult_le_compat_l; lra). destruct (Req_dec (L * s) (L * T)) as [->|Hne]; [lra|]. left. apply exp_increasing. lra. }
    destruct (HX k ltac:(lia)) as [LX BX].
    assert (LZ : length (Z k) = n).
    { clear -HZ0 HZ HX FL Hk. assert (forall j, (j <= N)%nat -> length (Z j) = n); [|apply H; lia].
      induction j as [|j IHj]; intros Hj; [rewrite HZ0; now apply HX|]. rewrite HZ by lia. apply step_length, IHj. lia. }
    set (E := e + c * h).
    assert (Hch : 0 <= c * h) by now apply Rmult_le_pos.
    assert (CZ : close E (Z k) (X k)).
    { intros j Hj. destruct (irr j) eqn:Ej; [specialize (Irr k j ltac:(lia) Hj Ej)|specialize (IH j Hj Ej)]; unfold E; lra. }
    assert (IZ : inbox (B + 1/2) (Z k)).
    { split; [exact LZ|]. intros j Hj. pose proof (Rabs_sub_le (nth j (Z k) 0) (nth j (X k) 0)) as Q. specialize (BX j Hj).
      assert (Rabs (nth j (Z k) 0 - nth j (X k) 0) <= 1/2); [|lra].
      destruct (irr j) eqn:Ej; [specialize (Irr k j ltac:(lia) Hj Ej)|specialize (IH j Hj Ej)]; lra. }
    assert (IZ1 : inbox (B + 1) (Z k)) by (split; [exact LZ|]; intros j Hj; destruct IZ as [_ IZ]; specialize (IZ j Hj); lra).
    assert (IX1 : inbox (B + 1) (X k)) by (split; [exact LX|]; intros j Hj; specialize (BX j Hj); lra).
    destruct (step_error meth d (Z k) i IZ ltac:(lra)) as [SE _]; trivial.
    { refine (Rle_trans _ _ _ _ Sm). apply Rmult_le_compat_r; lra. }
    specialize (SE Hr). rewrite HZ by lia. fold d. specialize (Def k i ltac:(lia) Hi Hr). fold d in Def.
    pose proof (Lip (Z k) (X k) E i IZ1 IX1 CZ Hi Hr) as LE. specialize (IH i Hi Hr).
    set (zk := nth i (Z k) 0) in *. set (xk := nth i (X k) 0) in *. set (zn := nth i (step meth d (Z k)) 0) in *. set (xn := nth i (X (S k)) 0) in *.
    set (fz := nth i (F (Z k)) 0) in *. set (fx := nth i (F (X k)) 0) in *.
    assert (S1 : Rabs (zn - xn) <= e + d * (L * E) + L * M * (d * d) + C1 * (d * d)).
    { replace (zn - xn) with ((zk - xk) + d * (fz - fx) + ((zn - zk - d * fz) - (xn - xk - d * fx))) by ring.
      refine (Rle_trans _ _ _ (Rabs_tri3 _ _ _) _).
      assert (Rabs (d * (fz - fx)) <= d * (L * E)) by (apply Rabs_mult_le; [rewrite Rabs_pos_eq; lra|exact LE]).
      assert (Rabs ((zn - zk - d * fz) - (xn - xk - d * fx)) <= L * M * (d * d) + C1 * (d * d)).
      { unfold Rminus at 1. refine (Rle_trans _ _ _ (Rabs_triang _ _) _). rewrite Rabs_Ropp. lra. }
      lra. }
    refine (Rle_trans _ _ _ S1 _).
    replace (t (S k) - t 0%nat) with (s + d) by (unfold s, d; ring).
    assert (Q1 : d * d <= h * d) by (apply Rmult_le_compat_r; lra).
    assert (Q2 : e + d * (L * E) + L * M * (d * d) + C1 * (d * d) <= (1 + L * d) * e + K * h * d).
    { unfold E, K. assert (0 <= L * M) by now apply Rmult_le_pos. assert (L * M * (d * d) <= L * M * (h * d)) by (apply Rmult_le_compat_l; lra).
      assert (C1 * (d * d) <= C1 * (h * d)) by (apply Rmult_le_compat_l; lra). nra. }
    refine (Rle_trans _ _ _ Q2 _). replace (L * (s + d)) with (L * s + L * d) by ring. rewrite exp_plus. replace (K * h * (s + d) * (exp (L * s) * exp (L * d))) with (K * h * s * (exp (L * s) * exp (L * d)) + K * h * d * (exp (L * s) * exp (L * d))) by ring.
    pose proof (exp_pos (L * s)) as P1. pose proof (exp_pos (L * d)) as P2. pose proof (exp_ge_1p (L * d)) as P3. pose proof (exp_ge_1p (L * s)) as P4.
    assert (HLd : 0 <= L * d) by (apply Rmult_le_pos; lra). assert (HLs : 0 <= L * s) by (apply Rmult_le_pos; lra).
    apply Rplus_le_compat.
    + unfold e. replace ((1 + L * d) * (K * h * s * exp (L * s))) with (K * h * s * (exp (L * s) * (1 + L * d))) by ring.
      apply Rmult_le_compat_l; [apply Rmult_le_pos; lra|]. apply Rmult_le_compat_l; lra.
    + rewrite <- (Rmult_1_r (K * h * d)) at 1. apply Rmult_le_compat_l; [apply Rmult_le_pos; lra|].
      rewrite <- (Rmult_1_l 1). apply Rmult_le_compat; lra.
Qed.
(** uniform in the number of steps *)
Lemma global_bound k i : (k <= N)%nat -> (i < n)%nat -> Rabs (nth i (Z k) 0 - nth i (X k) 0) <= (K * T * exp (L * T) + c) * h.
Proof.
  intros Hk Hi. pose proof K_nonneg as HK. destruct (t_mono k Hk) as [T1 T2]. assert (Hch : 0 <= c * h) by now apply Rmult_le_pos.
  assert (HT0 : 0 <= T) by lra. pose proof (exp_pos (L * T)) as P.
  assert (HKT : 0 <= K * T * exp (L * T) * h) by (repeat apply Rmult_le_pos; lra).
  destruct (irr i) eqn:Ei; [specialize (Irr k i Hk Hi Ei); lra|].
  pose proof (global_error k Hk i Hi Ei) as E. set (s := t k - t 0%nat) in *.
  assert (K * h * s * exp (L * s) <= K * T * exp (L * T) * h); [|lra].
  replace (K * T * exp (L * T) * h) with (K * h * T * exp (L * T)) by ring.
  assert (0 <= K * h) by now apply Rmult_le_pos. assert (0 <= s) by (unfold s; lra).
  apply Rmult_le_compat; [now apply Rmult_le_pos|left; apply exp_pos| |].
  - apply Rmult_le_compat_l; [trivial|unfold s; lra].
  - assert (L * s <= L * T) by (apply Rmult_le_compat_l; [trivial|unfold s; lra]). destruct (Req_dec (L * s) (L * T)) as [->|Hne]; [lra|]. left. apply exp_increasing. lra.
Qed.
End Global.

(** a component which depends on itself only is integrated on its own *)
Definition rk1 (f : R -> R) (d x : R) : R :=
  let k1 := f x in
  let k2 := f (x + d / 2 * k1) in
  let k3 := f (x + d / 2 * k2) in
  let k4 := f (x + d * k3) in
  x + d / 6 * (k1 + 2 * k2 + 2 * k3 + k4).
Definition step1 (m : int_method) (f : R -> R) (d x : R) : R := match m with RungeKutta => rk1 f d x | Euler => x + d * f x end.
Lemma step_comp n F m i f d x : (forall x, length x = n -> length (F x) = n) -> (i < n)%nat ->
  (forall x, length x = n -> nth i (F x) 0 = f (nth i x 0)) -> length x = n -> nth i (step F m d x) 0 = step1 m f d (nth i x 0).
Proof.
  intros FL Hi Hf Lx. destruct m; cbn [step step1]; unfold rk4, rk1, euler; cbv zeta.
  - set (k1 := F x). assert (L1 : length k1 = n) by now apply FL. set (u2 := axpy (d / 2) x k1). assert (L2 : length u2 = n) by (unfold u2; rewrite axpy_length; lia).
    set (k2 := F u2). assert (L3 : length k2 = n) by now apply FL. set (u3 := axpy (d / 2) x k2). assert (L4 : length u3 = n) by (unfold u3; rewrite axpy_length; lia).
    set (k3 := F u3). assert (L5 : length k3 = n) by now apply FL. set (u4 := axpy d x k3). assert (L6 : length u4 = n) by (unfold u4; rewrite axpy_length; lia).
    set (k4 := F u4). assert (L7 : length k4 = n) by now apply FL.
    rewrite (nth_axpy (d / 6)) by (rewrite ?axpy_length; rewrite ?axpy_length; rewrite ?axpy_length; lia).
    rewrite (nth_axpy 1) by (rewrite ?axpy_length; rewrite ?axpy_length; lia). rewrite (nth_axpy 2) by (rewrite ?axpy_length; lia). rewrite (nth_axpy 2) by lia.
    assert (E1 : nth i k1 0 = f (nth i x 0)) by now apply Hf. assert (E2 : nth i k2 0 = f (nth i u2 0)) by now apply Hf.
    assert (E3 : nth i k3 0 = f (nth i u3 0)) by now apply Hf. assert (E4 : nth i k4 0 = f (nth i u4 0)) by now apply Hf.
    assert (U2 : nth i u2 0 = nth i x 0 + d / 2 * nth i k1 0) by (apply nth_axpy; lia). assert (U3 : nth i u3 0 = nth i x 0 + d / 2 * nth i k2 0) by (apply nth_axpy; lia).
    assert (U4 : nth i u4 0 = nth i x 0 + d * nth i k3 0) by (apply nth_axpy; lia).
    rewrite <- E1, <- U2, <- E2, <- U3, <- E3, <- U4, <- E4. ring.
  - rewrite nth_axpy by (rewrite ?FL by assumption; lia). now rewrite Hf.
Qed.
