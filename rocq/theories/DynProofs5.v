(** Proofs: time systems, numerical integration, decoupling of parameters. *)
From Verif Require Import Base BaseLemmas DynModel DynSpec DynProofs DynProofs2 DynProofs3 DynProofs4.

(** ** time systems *)
Lemma t_ana_ok tau down ts : tau <> 0 ->
  t_ana (new_time tau down) ts =
  Ok (map (fun t => [if down then Rmax 0 (1 - t / tau) else Rmin 1 (t / tau)]) ts,
      map (fun t => [if down then (if Rlt_dec 1 (t / tau) then 0 else -1 / tau)
                     else (if Rlt_dec 1 (t / tau) then 0 else 1 / tau)]) ts).
Proof.
  intros H. unfold t_ana, new_time; cbn. destruct (Req_EM_T tau 0); [contradiction|]. f_equal.
  f_equal; apply map_ext; intros t; destruct down.
  - unfold Rmax. destruct (Rle_dec 0 (1 - t / tau)), (Rlt_dec (1 - t / tau) 0); trivial; lra.
  - unfold Rmin. destruct (Rle_dec 1 (t / tau)), (Rlt_dec 1 (t / tau)); trivial; try lra. f_equal; lra.
  - destruct (Rlt_dec (1 - t / tau) 0), (Rlt_dec 1 (t / tau)); trivial; lra.
  - destruct (Rlt_dec 1 (t / tau)); reflexivity.
Qed.

Lemma t_diffeq_row tau (down : bool) t : tau <> 0 -> t <> tau ->
  t_diffeq (new_time tau down) [if down then Rmax 0 (1 - t / tau) else Rmin 1 (t / tau)]
  = Ok [if down then (if Rlt_dec 1 (t / tau) then 0 else -1 / tau)
        else (if Rlt_dec 1 (t / tau) then 0 else 1 / tau)].
Proof.
  intros Hn Ht. assert (E : t / tau <> 1).
  { intros E. apply Ht. replace t with (t / tau * tau) by (field; trivial). rewrite E; ring. }
  unfold t_diffeq, new_time; cbn. destruct down; cbn.
  - unfold Rmax. destruct (Rle_dec 0 (1 - t / tau)).
    + destruct (Rlt_dec 0 (1 - t / tau)); [|lra]. destruct (Req_EM_T tau 0); [contradiction|].
      destruct (Rlt_dec 1 (t / tau)); [lra|reflexivity].
    + destruct (Rlt_dec 0 0); [lra|]. destruct (Rlt_dec 1 (t / tau)); [reflexivity|lra].
  - unfold Rmin. destruct (Rle_dec 1 (t / tau)).
    + destruct (Rlt_dec 1 1); [lra|]. destruct (Rlt_dec 1 (t / tau)); [reflexivity|lra].
    + destruct (Rlt_dec (t / tau) 1); [|lra]. destruct (Req_EM_T tau 0); [contradiction|].
      destruct (Rlt_dec 1 (t / tau)); [lra|reflexivity].
Qed.

(** ** vectors *)
Lemma axpy_length c x y : length y = length x -> length (axpy c x y) = length x.
Proof. intros H; unfold axpy; rewrite map2_length, H. apply Nat.min_id. Qed.
Lemma nth_axpy c x y i : length y = length x -> (i < length x)%nat -> nth i (axpy c x y) 0 = nth i x 0 + c * nth i y 0.
Proof. intros H Hi. unfold axpy. apply (nth_map2 (fun u v => u + c * v)); lia. Qed.
Lemma vop_axpy c x y : length y = length x -> vop Rplus x (map (Rmult c) y) = Ok (axpy c x y).
Proof.
  intros H. rewrite vop_same by (now rewrite map_length). f_equal. unfold axpy.
  clear H. revert y; induction x; intros [|b y]; cbn; [reflexivity..|]. f_equal. apply IHx.
Qed.
Lemma list_ext_nth (x y : list R) : length x = length y -> (forall i, (i < length x)%nat -> nth i x 0 = nth i y 0) -> x = y.
Proof. intros L H. apply nth_ext with (d := 0) (d' := 0); trivial. Qed.

Section Steps.
Variables (f : list R -> res (list R)) (n : nat) (F : list R -> list R).
Hypothesis HF : computes f n F.

Lemma step_euler_ok dt x : length x = n -> step_euler f n dt x = Ok (euler F dt x, F x).
Proof.
  intros Hx. unfold step_euler. rewrite Hx, Nat.eqb_refl. destruct (HF x Hx) as [E L]. rewrite E. cbn [bind].
  rewrite vop_axpy by congruence. reflexivity.
Qed.

Lemma axpy_half dt x k : map2 (fun u v => u + dt * 0.5 * v) x k = axpy (dt / 2) x k.
Proof.
  unfold axpy. revert k; induction x; intros [|b y]; cbn; [reflexivity..|]. f_equal; [replace 0.5 with (/ 2) by lra; field|apply IHx].
Qed.

Lemma rk4_length dt x : length x = n -> length (rk4 F dt x) = n.
Proof.
  intros Hx. unfold rk4. destruct (HF x Hx) as [_ L1].
  destruct (HF (axpy (dt / 2) x (F x))) as [_ L2]; [rewrite axpy_length; congruence|].
  set (k2 := F (axpy (dt / 2) x (F x))) in *.
  destruct (HF (axpy (dt / 2) x k2)) as [_ L3]; [rewrite axpy_length; congruence|].
  set (k3 := F (axpy (dt / 2) x k2)) in *.
  destruct (HF (axpy dt x k3)) as [_ L4]; [rewrite axpy_length; congruence|].
  set (k4 := F (axpy dt x k3)) in *.
  assert (A1 : length (axpy 2 (F x) k2) = n) by (rewrite axpy_length; congruence).
  assert (A2 : length (axpy 2 (axpy 2 (F x) k2) k3) = n) by (rewrite axpy_length; congruence).
  assert (A3 : length (axpy 1 (axpy 2 (axpy 2 (F x) k2) k3) k4) = n) by (rewrite axpy_length; congruence).
  rewrite axpy_length; congruence.
Qed.

Lemma step_rk_ok dt x : length x = n -> step_rk f n dt x = Ok (rk4 F dt x, F (rk4 F dt x)).
Proof.
  intros Hx. pose proof (rk4_length dt x Hx) as LR. unfold step_rk. rewrite Hx, Nat.eqb_refl.
  destruct (HF x Hx) as [E1 L1]. rewrite E1. cbn [bind].
  rewrite vop_axpy by congruence. cbn [bind].
  replace (axpy (dt * 0.5) x (F x)) with (axpy (dt / 2) x (F x)) by (unfold axpy at 2; now rewrite axpy_half).
  destruct (HF (axpy (dt / 2) x (F x))) as [E2 L2]; [rewrite axpy_length; congruence|]. rewrite E2. cbn [bind].
  unfold rk4 in LR |- *. set (k2 := F (axpy (dt / 2) x (F x))) in *.
  rewrite vop_axpy by congruence. cbn [bind].
  replace (axpy (dt * 0.5) x k2) with (axpy (dt / 2) x k2) by (unfold axpy at 2; now rewrite axpy_half).
  destruct (HF (axpy (dt / 2) x k2)) as [E3 L3]; [rewrite axpy_length; congruence|]. rewrite E3. cbn [bind].
  set (k3 := F (axpy (dt / 2) x k2)) in *.
  rewrite vop_axpy by congruence. cbn [bind].
  destruct (HF (axpy dt x k3)) as [E4 L4]; [rewrite axpy_length; congruence|]. rewrite E4. cbn [bind].
  set (k4 := F (axpy dt x k3)) in *. clearbody k2 k3 k4.
  rewrite vop_same by congruence. cbn [bind].
  rewrite vop_same by (rewrite map_length, map2_length; lia). cbn [bind].
  rewrite vop_same by (rewrite map2_length, map_length, map2_length; lia). cbn [bind].
  rewrite vop_same by (rewrite map_length, map2_length, map2_length, map_length, map2_length; lia). cbn [bind].
  assert (A1 : length (axpy 2 (F x) k2) = n) by (rewrite axpy_length; congruence).
  assert (A2 : length (axpy 2 (axpy 2 (F x) k2) k3) = n) by (rewrite axpy_length; congruence).
  assert (A3 : length (axpy 1 (axpy 2 (axpy 2 (F x) k2) k3) k4) = n) by (rewrite axpy_length; congruence).
  replace (map2 Rplus x _) with (axpy (dt / 6) x (axpy 1 (axpy 2 (axpy 2 (F x) k2) k3) k4)).
  - destruct (HF _ LR) as [E5 L5]. rewrite E5. reflexivity.
  - apply list_ext_nth.
    + rewrite axpy_length by congruence. rewrite map2_length, map_length, map2_length, map2_length, map_length, map2_length. lia.
    + intros i Hi. rewrite axpy_length in Hi by congruence. rewrite nth_axpy by (congruence || lia).
      rewrite nth_axpy by (congruence || lia). rewrite nth_axpy by (congruence || lia). rewrite nth_axpy by (congruence || lia).
      rewrite (nth_map2 Rplus _ _ _ 0 0 0); [|lia|rewrite map_length, map2_length, map2_length, map_length, map2_length; lia].
      rewrite (nth_map_lt _ _ _ 0 0) by (rewrite map2_length, map2_length, map_length, map2_length; lia).
      rewrite (nth_map2 Rplus _ _ _ 0 0 0); [|rewrite map2_length, map_length, map2_length; lia|lia].
      rewrite (nth_map2 Rplus _ _ _ 0 0 0); [|lia|rewrite map_length, map2_length; lia].
      rewrite (nth_map_lt _ _ _ 0 0) by (rewrite map2_length; lia).
      rewrite (nth_map2 Rplus _ _ _ 0 0 0); [|lia|lia]. field.
Qed.
End Steps.

Lemma step_wrong_size m f n dt x : length x <> n -> int_step f n m dt x = Err ValueError.
Proof.
  intros H. apply Nat.eqb_neq in H. destruct m; cbn; [unfold step_rk|unfold step_euler]; now rewrite H.
Qed.

(** a state with rate 0 stays, for any f *)
Lemma axpy_zeros c x n : length x = n -> map2 Rplus x (map (Rmult c) (zeros n)) = x.
Proof.
  revert n; induction x as [|a x IH]; intros [|n]; cbn; intros H; try discriminate; [reflexivity|].
  f_equal; [ring|]. apply IH. lia.
Qed.
Lemma map2_zeros c n : map2 Rplus (zeros n) (map (Rmult c) (zeros n)) = zeros n.
Proof. apply axpy_zeros. apply repeat_length. Qed.
Lemma map2_zeros' n : map2 Rplus (zeros n) (zeros n) = zeros n.
Proof. induction n; cbn; [reflexivity|]. f_equal; [ring|apply IHn]. Qed.
Lemma zeros_length n : length (zeros n) = n.
Proof. apply repeat_length. Qed.
Lemma map_zeros (g : R -> R) n : g 0 = 0 -> map g (zeros n) = zeros n.
Proof. intros H. unfold zeros. induction n; cbn; [reflexivity|]. now rewrite H, IHn. Qed.

Lemma step_equilibrium m f n dt x : length x = n -> f x = Ok (zeros n) -> int_step f n m dt x = Ok (x, zeros n).
Proof.
  intros Hx E. destruct m; cbn.
  - unfold step_rk. rewrite Hx, Nat.eqb_refl. rewrite E. cbn [bind].
    rewrite vop_same by (now rewrite map_length, zeros_length). cbn [bind]. rewrite axpy_zeros by trivial. rewrite E. cbn [bind].
    rewrite vop_same by (now rewrite map_length, zeros_length). cbn [bind]. rewrite axpy_zeros by trivial. rewrite E. cbn [bind].
    rewrite vop_same by (now rewrite map_length, zeros_length). cbn [bind]. rewrite axpy_zeros by trivial. rewrite E. cbn [bind].
    rewrite vop_same by reflexivity. cbn [bind]. rewrite map2_zeros'.
    rewrite vop_same by (now rewrite map_length). cbn [bind]. rewrite map2_zeros.
    rewrite vop_same by reflexivity. cbn [bind]. rewrite map2_zeros'.
    rewrite (map_zeros (fun v => dt * v / 6)) by field.
    rewrite vop_same by (now rewrite zeros_length). cbn [bind].
    replace (map2 Rplus x (zeros n)) with x. { rewrite E. reflexivity. }
    symmetry. rewrite <- (axpy_zeros 1 x n Hx) at 2. f_equal. symmetry. apply map_zeros. ring.
  - unfold step_euler. rewrite Hx, Nat.eqb_refl, E. cbn [bind].
    rewrite vop_same by (now rewrite map_length, zeros_length). cbn [bind]. now rewrite axpy_zeros.
Qed.

(** ** integrate *)
Lemma int_loop_spec f n m ts : forall t x xs xds, int_loop f n m t x ts = Ok (xs, xds) ->
  length xs = length ts /\ length xds = length ts /\
  forall i, (i < length ts)%nat ->
    int_step f n m (nth (S i) (t :: ts) 0 - nth i (t :: ts) 0) (nth i (x :: xs) []) = Ok (nth i xs [], nth i xds []).
Proof.
  induction ts as [|t' ts IH]; intros t x xs xds; cbn [int_loop].
  - intros H. injection H as <- <-. repeat split; trivial. intros i Hi; cbn in Hi; lia.
  - destruct (int_step f n m (t' - t) x) as [[x' xd']|] eqn:E; cbn [bind]; [|discriminate].
    destruct (int_loop f n m t' x' ts) as [[xs' xds']|] eqn:E'; cbn [bind]; [|discriminate].
    intros H. injection H as <- <-. destruct (IH _ _ _ _ E') as (L1 & L2 & H3). cbn [length].
    repeat split; [congruence..|]. intros [|i] Hi; [exact E|]. apply (H3 i). lia.
Qed.

Lemma integrate_spec f n m x0 ts xs xds : integrate f n m x0 ts = Ok (xs, xds) ->
  length xs = length ts /\ length xds = length ts /\ nth 0 xs [] = x0 /\ f x0 = Ok (nth 0 xds []) /\
  forall i, (S i < length ts)%nat ->
    int_step f n m (nth (S i) ts 0 - nth i ts 0) (nth i xs []) = Ok (nth (S i) xs [], nth (S i) xds []).
Proof.
  unfold integrate, integrate_start. destruct (f x0) as [xd0|] eqn:E0; cbn [bind]; [|discriminate].
  destruct ts as [|t ts]; [discriminate|].
  destruct (int_loop f n m t x0 ts) as [[xs' xds']|] eqn:E; cbn [bind]; [|discriminate].
  intros H. injection H as <- <-. destruct (int_loop_spec _ _ _ _ _ _ _ _ E) as (L1 & L2 & H3).
  cbn [length]. repeat split; [congruence..|]. intros i Hi. apply (H3 i). lia.
Qed.

(** when it returns *)
Lemma int_loop_total f n m F ts : computes f n F -> forall t x, length x = n ->
  exists xs xds, int_loop f n m t x ts = Ok (xs, xds) /\ Forall (fun r => length r = n) xs /\ Forall (fun r => length r = n) xds.
Proof.
  intros HF. induction ts as [|t' ts IH]; intros t x Hx.
  - exists [], []. repeat split; constructor.
  - cbn [int_loop].
    assert (S : exists x' xd', int_step f n m (t' - t) x = Ok (x', xd') /\ length x' = n /\ length xd' = n).
    { destruct m; cbn.
      - rewrite (step_rk_ok f n F HF) by trivial. eexists _, _. split; [reflexivity|].
        assert (L : length (rk4 F (t' - t) x) = n) by (apply (rk4_length f n F HF); trivial).
        split; [trivial|]. apply HF. trivial.
      - rewrite (step_euler_ok f n F HF) by trivial. eexists _, _. split; [reflexivity|].
        destruct (HF x Hx) as [_ L]. split; [|trivial]. unfold euler. rewrite axpy_length; congruence. }
    destruct S as (x' & xd' & E & L1 & L2). rewrite E. cbn [bind].
    destruct (IH t' x' L1) as (xs & xds & E' & F1 & F2). rewrite E'. cbn [bind].
    eexists _, _. split; [reflexivity|]. split; constructor; trivial.
Qed.

Lemma integrate_total f n m F x0 t ts : computes f n F -> length x0 = n ->
  exists xs xds, integrate f n m x0 (t :: ts) = Ok (xs, xds) /\
    Forall (fun r => length r = n) xs /\ Forall (fun r => length r = n) xds.
Proof.
  intros HF Hx. unfold integrate, integrate_start. destruct (HF x0 Hx) as [E L]. rewrite E. cbn [bind].
  destruct (int_loop_total f n m F ts HF t x0 Hx) as (xs & xds & E' & F1 & F2). rewrite E'. cbn [bind].
  eexists _, _. split; [reflexivity|]. split; constructor; trivial.
Qed.

Lemma integrate_rest f n m x0 t ts : length x0 = n -> f x0 = Ok (zeros n) ->
  integrate f n m x0 (t :: ts) = Ok (map (fun _ => x0) (t :: ts), map (fun _ => zeros n) (t :: ts)).
Proof.
  intros Hx E. unfold integrate, integrate_start. rewrite E. cbn [bind].
  replace (int_loop f n m t x0 ts) with (Ok (map (fun _ => x0) ts, map (fun _ => zeros n) ts)); [reflexivity|].
  revert t; induction ts as [|t' ts IH]; intros t; [reflexivity|]. cbn [int_loop].
  rewrite step_equilibrium by trivial. cbn [bind]. rewrite <- IH. reflexivity.
Qed.
