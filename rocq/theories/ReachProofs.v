(** Step-by-step executions reach the goal: scalar recursions. *)
From Coq Require Import String Lia Lra.
From Verif Require Import Base BaseLemmas DynModel DmpProofs12 IntModel PushSpec PushProofs.
Open Scope R_scope.

(** ** the intermediate values and the result of a step of a scalar system *)
Section Scalar.
Variable f : R -> R.
Variable dt : R.
Definition st2 (g : R) := g + dt * 0.5 * f g.
Definition st3 (g : R) := g + dt * 0.5 * f (st2 g).
Definition st4 (g : R) := g + dt * f (st3 g).
Definition nxt (me : int_method) (g : R) : R :=
  match me with Euler => g + dt * f g | RungeKutta => g + dt / 6 * (f g + 2 * (f (st2 g) + f (st3 g)) + f (st4 g)) end.
Definition calm (P : R -> Prop) (q : R) (me : int_method) : Prop := forall g, P g ->
  Rabs (st2 g) <= Rabs g /\ Rabs (st3 g) <= Rabs g /\ Rabs (st4 g) <= Rabs g /\ Rabs (nxt me g) <= q * Rabs g /\ P (nxt me g).
End Scalar.

Lemma times_le1 c g : -1 <= c <= 1 -> Rabs (c * g) <= Rabs g.
Proof. intros H. rewrite Rabs_mult. rewrite <- (Rmult_1_l (Rabs g)) at 2. apply Rmult_le_compat_r; [apply Rabs_pos|]. apply Rabs_le. lra. Qed.
Lemma calm_linear f c dt me : (forall g, f g = - c * g) -> 0 < c * dt < 2 -> calm f dt (fun _ => True) (Rabs (decay me (c * dt))) me.
Proof.
  intros Hf [H1 H2] g _. set (u := c * dt) in *.
  assert (Q : 0 <= u * u <= 4) by (split; [apply Rmult_le_pos; lra|]; replace 4 with (2 * 2) by ring; apply Rmult_le_compat; lra).
  assert (Q2 : u * u <= 2 * u) by (apply Rmult_le_compat_r; lra).
  set (v := 1 - u / 2 + u * u / 4). assert (V : 3 / 4 <= v <= 1) by (unfold v; split; [|lra]; pose proof (pow2_ge_0 (u / 2 - 1 / 2)) as Z; replace ((u / 2 - 1 / 2) ^ 2) with (u * u / 4 - u / 2 + 1 / 4) in Z by field; lra).
  assert (UV : 0 <= u * v <= 2) by (split; [apply Rmult_le_pos; lra|]; replace 2 with (2 * 1) by ring; apply Rmult_le_compat; lra).
  assert (E2 : st2 f dt g = (1 - u / 2) * g) by (unfold st2; rewrite Hf; unfold u; replace 0.5 with (/ 2) by lra; field).
  assert (E3 : st3 f dt g = v * g) by (unfold st3; rewrite Hf, E2; unfold v, u; replace 0.5 with (/ 2) by lra; field).
  assert (E4 : st4 f dt g = (1 - u * v) * g) by (unfold st4; rewrite Hf, E3; unfold u; ring).
  split; [rewrite E2; apply times_le1; lra|]. split; [rewrite E3; apply times_le1; lra|]. split; [rewrite E4; apply times_le1; lra|]. split; [|exact I].
  right. rewrite <- Rabs_mult. f_equal. destruct me; cbn [nxt decay]; [|rewrite Hf; unfold u; ring]. rewrite !Hf, E2, E3, E4. unfold v, u. field.
Qed.
Lemma calm_sigmoid f r K n0 dt : (forall g, f g = r * g * (1 - g / K)) -> r < 0 -> 0 < n0 < K -> 0 < dt -> - r * dt <= 1 ->
  let q := 1 - dt * (- r * (1 - n0 / K)) / 6 in 0 <= q < 1 /\ forall me, calm f dt (fun g => 0 <= g <= n0) q me.
Proof.
  intros Hf Hr [Hn HK] Hd Hs q. set (rho := - r) in *. set (c := rho * (1 - n0 / K)) in *.
  assert (H1 : 0 < 1 - n0 / K <= 1).
  { assert (0 < n0 / K) by (apply Rdiv_lt_0_compat; lra). assert (n0 / K < 1) by (apply (Rmult_lt_reg_r K); [lra|]; unfold Rdiv; rewrite Rmult_assoc, Rinv_l; lra). lra. }
  assert (Hrho : 0 < rho) by (unfold rho; lra).
  assert (Hc : 0 < c <= rho). { unfold c. split; [apply Rmult_lt_0_compat; lra|]. rewrite <- (Rmult_1_r rho) at 2. apply Rmult_le_compat_l; lra. }
  assert (Hdc : 0 < dt * c <= 1). { split; [apply Rmult_lt_0_compat; lra|]. apply Rle_trans with (rho * dt); [|exact Hs]. rewrite Rmult_comm. apply Rmult_le_compat_r; lra. }
  assert (Fb : forall y, 0 <= y <= n0 -> c * y <= - f y <= rho * y).
  { intros y Hy. rewrite Hf. replace (- (r * y * (1 - y / K))) with (rho * (1 - y / K) * y) by (unfold rho; ring).
    assert (Hy2 : 0 <= y / K <= n0 / K) by (split; [apply Rmult_le_pos; [lra|left; apply Rinv_0_lt_compat; lra]|apply Rmult_le_compat_r; [left; apply Rinv_0_lt_compat; lra|lra]]).
    split; apply Rmult_le_compat_r; try lra; unfold c; [apply Rmult_le_compat_l; lra|]. rewrite <- (Rmult_1_r rho) at 2. apply Rmult_le_compat_l; lra. }
  assert (Db : forall y g, 0 <= y <= g -> g <= n0 -> 0 <= dt * - f y <= g).
  { intros y g Hy Hg. destruct (Fb y ltac:(lra)) as [F1 F2]. assert (0 <= c * y) by (apply Rmult_le_pos; lra). split; [apply Rmult_le_pos; lra|].
    apply Rle_trans with (dt * (rho * y)); [apply Rmult_le_compat_l; lra|]. replace (dt * (rho * y)) with (rho * dt * y) by ring.
    apply Rle_trans with (1 * y); [apply Rmult_le_compat_r; lra|lra]. }
  split; [unfold q; lra|]. intros me g Hg.
  assert (B1 := Db g g ltac:(lra) ltac:(lra)).
  assert (S2 : 0 <= st2 f dt g <= g) by (unfold st2; replace 0.5 with (/ 2) by lra; lra). assert (B2 := Db _ g S2 ltac:(lra)).
  assert (S3 : 0 <= st3 f dt g <= g) by (unfold st3; replace 0.5 with (/ 2) by lra; lra). assert (B3 := Db _ g S3 ltac:(lra)).
  assert (S4 : 0 <= st4 f dt g <= g) by (unfold st4; lra). assert (B4 := Db _ g S4 ltac:(lra)).
  destruct (Fb g ltac:(lra)) as [F1 _]. assert (L1 : dt * c * g <= dt * - f g) by (rewrite Rmult_assoc; apply Rmult_le_compat_l; lra).
  assert (C0 : 0 <= dt * c * g) by (apply Rmult_le_pos; lra).
  assert (N : 0 <= nxt f dt me g <= q * g) by (unfold q; replace ((1 - dt * c / 6) * g) with (g - dt * c * g / 6) by field; destruct me; cbn [nxt]; split; lra).
  assert (Q : q * g <= g) by (unfold q; replace ((1 - dt * c / 6) * g) with (g - dt * c * g / 6) by field; lra).
  rewrite !Rabs_pos_eq by lra. split; [lra|]. split; [lra|]. split; [lra|]. split; [lra|]. lra.
Qed.

(** ** contractions *)
Definition fades_out (x : nat -> R) : Prop := forall eps, 0 < eps -> exists K, forall k, (K <= k)%nat -> x k < eps.
Lemma contract (x u : nat -> R) L U : 0 <= L < 1 -> (forall k, x (S k) <= L * x k + u k) -> (forall k, u k <= U) -> fades_out u -> fades_out x.
Proof.
  intros HL Hs Hu Hv.
  assert (V : vanishes nat S (fun _ k => x k)).
  { apply (contraction nat S (fun _ k => x k) (fun _ k => u k) L (Rabs (x 0%nat)) (Rabs U)); trivial.
    - apply Rabs_pos.
    - apply Rabs_pos.
    - intros _. apply Rle_abs.
    - intros _ k _. eapply Rle_trans; [apply Hu|apply Rle_abs].
    - intros eps He. destruct (Hv eps He) as [K HK]. exists K. intros _ k Hk _. now apply HK. }
  intros eps He. destruct (V eps He) as [K HK]. exists K. intros k Hk. exact (HK k k Hk ltac:(lia)).
Qed.
Lemma fades_lin (x y : nat -> R) p q : 0 <= p -> 0 <= q -> fades_out x -> fades_out y -> fades_out (fun k => p * x k + q * y k).
Proof.
  intros Hp Hq Hx Hy eps He. set (s := p + q + 1). assert (Hs : 0 < s) by (unfold s; lra).
  destruct (Hx (eps / s)) as [K1 H1]; [now apply Rdiv_lt_0_compat|]. destruct (Hy (eps / s)) as [K2 H2]; [now apply Rdiv_lt_0_compat|].
  exists (Nat.max K1 K2). intros k Hk. specialize (H1 k ltac:(lia)). specialize (H2 k ltac:(lia)).
  apply Rle_lt_trans with (p * (eps / s) + q * (eps / s)); [apply Rplus_le_compat; apply Rmult_le_compat_l; lra|].
  replace (p * (eps / s) + q * (eps / s)) with ((p + q) * (eps / s)) by ring.
  replace eps with (s * (eps / s)) at 2 by (field; lra). apply Rmult_lt_compat_r; [now apply Rdiv_lt_0_compat|unfold s; lra].
Qed.

(** ** one step of a critically damped spring with forcing terms f1, ..., f4 *)
Lemma coefs c1 c2 c3 c4 f1 f2 f3 f4 phi : Rabs c1 <= 8 -> Rabs c2 <= 8 -> Rabs c3 <= 8 -> Rabs c4 <= 8 ->
  Rabs f1 <= phi -> Rabs f2 <= phi -> Rabs f3 <= phi -> Rabs f4 <= phi -> Rabs (c1 * f1 + c2 * f2 + c3 * f3 + c4 * f4) <= 32 * phi.
Proof.
  intros C1 C2 C3 C4 F1 F2 F3 F4.
  assert (T : forall c f, Rabs c <= 8 -> Rabs f <= phi -> Rabs (c * f) <= 8 * phi) by (intros c f Hc Hf; rewrite Rabs_mult; apply Rmult_le_compat; trivial; apply Rabs_pos).
  pose proof (T _ _ C1 F1). pose proof (T _ _ C2 F2). pose proof (T _ _ C3 F3). pose proof (T _ _ C4 F4).
  eapply Rle_trans; [apply Rabs_triang|]. eapply Rle_trans; [apply Rplus_le_compat_r; eapply Rle_trans; [apply Rabs_triang|apply Rplus_le_compat_r, Rabs_triang]|]. lra.
Qed.
Lemma spring_rk a h Y Z f1 f2 f3 f4 phi : 0 < a * h < 2 -> 0 < h ->
  Rabs f1 <= phi -> Rabs f2 <= phi -> Rabs f3 <= phi -> Rabs f4 <= phi ->
  let ky z := h * z in let kz y z f := h * (- (a * a) * y - 2 * a * z + f) in
  let Y2 := Y + ky Z / 2 in let Z2 := Z + kz Y Z f1 / 2 in
  let Y3 := Y + ky Z2 / 2 in let Z3 := Z + kz Y2 Z2 f2 / 2 in
  let Y4 := Y + ky Z3 in let Z4 := Z + kz Y3 Z3 f3 in
  let Y' := Y + (ky Z + 2 * (ky Z2 + ky Z3) + ky Z4) / 6 in
  let Z' := Z + (kz Y Z f1 + 2 * (kz Y2 Z2 f2 + kz Y3 Z3 f3) + kz Y4 Z4 f4) / 6 in
  Rabs (Z' + a * Y' - decay RungeKutta (a * h) * (Z + a * Y)) <= 8 * h * (1 + h) * phi /\
  Rabs (Y' - decay RungeKutta (a * h) * Y - h * gain RungeKutta (a * h) * (Z + a * Y)) <= 8 * h * (1 + h) * phi.
Proof.
  intros [U1 U2] Hh F1 F2 F3 F4 ky kz Y2 Z2 Y3 Z3 Y4 Z4 Y' Z'.
  assert (Hphi : 0 <= phi) by (pose proof (Rabs_pos f1); lra).
  set (u := a * h) in *.
  assert (P2 : 0 <= u * u <= 4) by (split; [apply Rmult_le_pos; lra|]; replace 4 with (2 * 2) by ring; apply Rmult_le_compat; lra).
  assert (P3 : 0 <= u * u * u <= 8) by (split; [apply Rmult_le_pos; lra|]; replace 8 with (4 * 2) by ring; apply Rmult_le_compat; lra).
  assert (T : 6 * (8 * h * (1 + h) * phi) = 48 * (h * phi) + 48 * (h * h * phi)) by ring.
  assert (S1 : 0 <= h * phi) by (apply Rmult_le_pos; lra). assert (S2 : 0 <= h * h * phi) by (apply Rmult_le_pos; [apply Rmult_le_pos|]; lra).
  split.
  - replace (Z' + a * Y' - decay RungeKutta u * (Z + a * Y)) with
      (h / 6 * ((1 - u + u * u / 2 - u * u * u / 4) * f1 + (2 - u + u * u / 2) * f2 + (2 - u) * f3 + 1 * f4)).
    2:{ unfold Z', Y', Z4, Y4, Z3, Y3, Z2, Y2, ky, kz, u. cbn [decay]. field. }
    rewrite Rabs_mult, (Rabs_pos_eq (h / 6)) by lra.
    apply Rle_trans with (h / 6 * (32 * phi)); [apply Rmult_le_compat_l; [lra|]; apply coefs; trivial; apply Rabs_le; lra|]. lra.
  - replace (Y' - decay RungeKutta u * Y - h * gain RungeKutta u * (Z + a * Y)) with
      (h * h / 6 * ((1 - u + 3 * (u * u) / 4) * f1 + (1 - u) * f2 + 1 * f3 + 0 * f4)).
    2:{ unfold Z', Y', Z4, Y4, Z3, Y3, Z2, Y2, ky, kz, u. cbn [decay gain]. field. }
    assert (0 <= h * h / 6) by (apply Rmult_le_pos; [apply Rmult_le_pos|]; lra).
    rewrite Rabs_mult, (Rabs_pos_eq (h * h / 6)) by trivial.
    apply Rle_trans with (h * h / 6 * (32 * phi)); [apply Rmult_le_compat_l; [trivial|]; apply coefs; trivial; apply Rabs_le; lra|].
    replace (h * h / 6 * (32 * phi)) with (32 / 6 * (h * h * phi)) by field. lra.
Qed.
Lemma spring_euler a h Y Z f1 phi : 0 < h -> Rabs f1 <= phi ->
  let Y' := Y + h * Z in let Z' := Z + h * (- (a * a) * Y - 2 * a * Z + f1) in
  Rabs (Z' + a * Y' - decay Euler (a * h) * (Z + a * Y)) <= 8 * h * (1 + h) * phi /\
  Rabs (Y' - decay Euler (a * h) * Y - h * gain Euler (a * h) * (Z + a * Y)) <= 8 * h * (1 + h) * phi.
Proof.
  intros Hh F1 Y' Z'. assert (Hphi : 0 <= phi) by (pose proof (Rabs_pos f1); lra).
  assert (S1 : 0 <= h * phi) by (apply Rmult_le_pos; lra). assert (S2 : 0 <= h * h * phi) by (apply Rmult_le_pos; [apply Rmult_le_pos|]; lra).
  assert (T : 8 * h * (1 + h) * phi = 8 * (h * phi) + 8 * (h * h * phi)) by ring. split.
  - replace (Z' + a * Y' - decay Euler (a * h) * (Z + a * Y)) with (h * f1) by (unfold Z', Y'; cbn [decay]; ring).
    rewrite Rabs_mult, (Rabs_pos_eq h) by lra. assert (h * Rabs f1 <= h * phi) by (apply Rmult_le_compat_l; lra). lra.
  - replace (Y' - decay Euler (a * h) * Y - h * gain Euler (a * h) * (Z + a * Y)) with 0 by (unfold Y'; cbn [decay gain]; ring). rewrite Rabs_R0. lra.
Qed.

(** ** phases stay bounded *)
Definition stays (f : R -> R) (dt B : R) (me : int_method) : Prop := forall p, Rabs p <= B ->
  Rabs (st2 f dt p) <= B /\ Rabs (st3 f dt p) <= B /\ Rabs (st4 f dt p) <= B /\ Rabs (nxt f dt me p) <= B.
Lemma stays_linear f c dt B me : (forall g, f g = - c * g) -> 0 < c * dt < 2 -> stays f dt B me.
Proof.
  intros Hf Hc p Hp. destruct (calm_linear f c dt me Hf Hc p I) as (H2 & H3 & H4 & H5 & _). split; [lra|]. split; [lra|]. split; [lra|].
  pose proof (decay_small me (c * dt) Hc). pose proof (Rabs_pos p). assert (Rabs (decay me (c * dt)) * Rabs p <= 1 * Rabs p) by (apply Rmult_le_compat_r; lra). lra.
Qed.
Lemma stays_up f r dt B me : (forall g, f g = if Rlt_dec g 1 then r else 0) -> 0 <= r -> 0 < dt -> 1 + dt * r <= B -> stays f dt B me.
Proof.
  intros Hf Hr Hd HB p Hp. assert (Hb : forall g, 0 <= f g <= r) by (intros g; rewrite Hf; destruct (Rlt_dec g 1); lra).
  assert (D : forall g, 0 <= dt * f g <= dt * r) by (intros g; specialize (Hb g); split; [apply Rmult_le_pos; lra|apply Rmult_le_compat_l; lra]).
  assert (Hp' : - B <= p <= B) by (revert Hp; unfold Rabs; destruct (Rcase_abs p); lra).
  destruct (Rlt_dec p 1) as [Hl|Hl].
  - assert (Q : forall d, 0 <= d <= dt * r -> Rabs (p + d) <= B) by (intros d H; apply Rabs_le; lra).
    unfold st4, st3, st2 at 1. pose proof (D p). pose proof (D (st2 f dt p)). pose proof (D (st3 f dt p)). pose proof (D (st4 f dt p)).
    replace 0.5 with (/ 2) by lra. split; [apply Q; lra|]. split; [apply Q; lra|]. split; [apply Q; fold (st2 f dt p); unfold st3 in *; replace 0.5 with (/ 2) in * by lra; lra|].
    destruct me; cbn [nxt]; apply Q; lra.
  - assert (F0 : f p = 0) by (rewrite Hf; destruct (Rlt_dec p 1); lra).
    assert (E2 : st2 f dt p = p) by (unfold st2; rewrite F0; ring). assert (E3 : st3 f dt p = p) by (unfold st3; rewrite E2, F0; ring).
    assert (E4 : st4 f dt p = p) by (unfold st4; rewrite E3, F0; ring). rewrite E2, E3, E4. split; [exact Hp|]. split; [exact Hp|]. split; [exact Hp|].
    replace (nxt f dt me p) with p; [exact Hp|]. destruct me; cbn [nxt]; rewrite ?E2, ?E3, ?E4, F0; lra.
Qed.
Lemma stays_down f r dt B me : (forall g, f g = if Rlt_dec 0 g then - r else 0) -> 0 <= r -> 0 < dt -> 1 + dt * r <= B -> stays f dt B me.
Proof.
  intros Hf Hr Hd HB p Hp. assert (Hb : forall g, 0 <= - f g <= r) by (intros g; rewrite Hf; destruct (Rlt_dec 0 g); lra).
  assert (D : forall g, 0 <= dt * - f g <= dt * r) by (intros g; specialize (Hb g); split; [apply Rmult_le_pos; lra|apply Rmult_le_compat_l; lra]).
  assert (Hp' : - B <= p <= B) by (revert Hp; unfold Rabs; destruct (Rcase_abs p); lra).
  destruct (Rlt_dec 0 p) as [Hl|Hl].
  - assert (Q : forall d, - (dt * r) <= d <= 0 -> Rabs (p + d) <= B) by (intros d H; apply Rabs_le; lra).
    unfold st4, st3, st2 at 1. pose proof (D p). pose proof (D (st2 f dt p)). pose proof (D (st3 f dt p)). pose proof (D (st4 f dt p)).
    replace 0.5 with (/ 2) by lra. split; [apply Q; lra|]. split; [apply Q; lra|]. split; [apply Q; fold (st2 f dt p); unfold st3 in *; replace 0.5 with (/ 2) in * by lra; lra|].
    destruct me; cbn [nxt]; apply Q; lra.
  - assert (F0 : f p = 0) by (rewrite Hf; destruct (Rlt_dec 0 p); lra).
    assert (E2 : st2 f dt p = p) by (unfold st2; rewrite F0; ring). assert (E3 : st3 f dt p = p) by (unfold st3; rewrite E2, F0; ring).
    assert (E4 : st4 f dt p = p) by (unfold st4; rewrite E3, F0; ring). rewrite E2, E3, E4. split; [exact Hp|]. split; [exact Hp|]. split; [exact Hp|].
    replace (nxt f dt me p) with p; [exact Hp|]. destruct me; cbn [nxt]; rewrite ?E2, ?E3, ?E4, F0; lra.
Qed.
