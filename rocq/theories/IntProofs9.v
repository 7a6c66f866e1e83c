(** Numerical integration of systems with a smooth solution, such as the spring-damper system. *)
From Verif Require Import Base BaseLemmas DynModel DynSpec DynProofs DynProofs2 DynProofs4 DynProofs5 DynProofs7 DmpModel DmpProofs2 DmpProofs3 DmpProofs13 IntSpec IntProofs IntProofs2 IntProofs4 IntProofs5 IntProofs6.
Open Scope R_scope.

Lemma smooth_error f an n F x0 X Xd T : computes f n F -> length x0 = n -> solves f an x0 X Xd ->
  (forall j, (j < n)%nat -> vlip n (fun x => nth j (F x) 0)) ->
  exists C h0, 0 <= C /\ 0 < h0 /\ forall me h ts, sampling T h ts -> h <= h0 -> exists xs xds ys yds,
    integrate f n me x0 ts = Ok (xs, xds) /\ an ts = Ok (ys, yds) /\ within (C * h) n xs ys.
Proof.
  intros FC L0 (EA & EX0 & LX & _ & HD & HF) VL. rewrite L0 in LX, HD.
  destruct (Nat.eq_dec n 0) as [Z0|Z0].
  { exists 0, 1. split; [lra|]. split; [lra|]. intros me h ts Hg _. pose proof Hg as (Hne & _). destruct ts as [|t ts]; [contradiction|].
    destruct (integrate_rows _ _ _ me x0 t ts FC L0) as (xs & xds & Ei & Lxs & _). eexists xs, xds, _, _. split; [exact Ei|]. split; [apply EA|].
    split; [now rewrite map_length|]. intros; lia. }
  assert (Hn : (0 < n)%nat) by lia.
  assert (XD : forall t, Xd t = F (X t)) by (intros t; destruct (FC (X t) (LX t)) as [E _]; rewrite HF in E; congruence).
  assert (HD' : forall i, (i < n)%nat -> forall t, derivable_pt_lim (comp X i) t (nth i (F (X t)) 0)).
  { intros i Hi t. rewrite <- XD. apply (HD t i Hi). }
  destruct (max_all (fun i c => forall t, 0 <= t <= T -> Rabs (comp X i t) <= c)) with (N := n) as (B & PB & HB).
  { intros j a b Hab H t Ht. specialize (H t Ht). lra. }
  { intros i Hi. destruct (bounded_on (comp X i) T) as [b Hb].
    { intros t. apply derivable_continuous_pt. eexists. apply (HD' i Hi). }
    exists (Rabs b). split; [apply Rabs_pos|]. intros t Ht. specialize (Hb t Ht). pose proof (Rle_abs b). lra. }
  assert (IB : forall t, 0 <= t <= T -> inbox n (B + 1) (X t)).
  { intros t Ht. split; [apply LX|]. intros i Hi. specialize (HB i Hi t Ht). unfold comp in HB. lra. }
  destruct (vlip_all n Hn (fun j x => nth j (F x) 0) (fun _ => true) (B + 1)) as (L & PL & HL).
  { intros j Hj _. now apply VL. }
  destruct (bound_all n Hn (fun j x => nth j (F x) 0) (B + 1)) as (M & PM & HM).
  { intros j Hj. now apply vlip_bound, VL. }
  assert (Lin : forall t d i, 0 <= t -> 0 <= d -> t + d <= T -> (i < n)%nat -> Rabs (comp X i (t + d) - comp X i t) <= M * d).
  { intros t d i H1 H2 H3 Hi. destruct (Req_dec d 0) as [->|Hne]; [rewrite Rplus_0_r; unfold Rminus; rewrite Rplus_opp_r, Rabs_R0; lra|].
    destruct (MVT_cor2 (comp X i) (fun c => nth i (F (X c)) 0) t (t + d) ltac:(lra) ltac:(intros; now apply HD')) as (c & Ec & Hc).
    rewrite Ec, Rabs_mult. replace (t + d - t) with d by ring. rewrite (Rabs_right d) by lra. apply Rmult_le_compat_r; [lra|]. apply HM; [|trivial]. apply IB. lra. }
  assert (Quad : forall t d i, 0 <= t -> 0 <= d -> t + d <= T -> (i < n)%nat -> Rabs (comp X i (t + d) - comp X i t - d * nth i (F (X t)) 0) <= L * M * (d * d)).
  { intros t d i H1 H2 H3 Hi. destruct (Req_dec d 0) as [->|Hne].
    { rewrite Rplus_0_r. replace (comp X i t - comp X i t - 0 * nth i (F (X t)) 0) with 0 by ring. rewrite Rabs_R0. lra. }
    destruct (MVT_cor2 (comp X i) (fun c => nth i (F (X c)) 0) t (t + d) ltac:(lra) ltac:(intros; now apply HD')) as (c & Ec & Hc).
    replace (t + d - t) with d in Ec by ring. rewrite Ec. replace (nth i (F (X c)) 0 * d - d * nth i (F (X t)) 0) with ((nth i (F (X c)) 0 - nth i (F (X t)) 0) * d) by ring.
    rewrite Rabs_mult, (Rabs_right d) by lra. replace (L * M * (d * d)) with (L * (M * d) * d) by ring. apply Rmult_le_compat_r; [lra|].
    apply HL; [apply IB; lra|apply IB; lra| |trivial|reflexivity]. intros j Hj.
    pose proof (Lin t (c - t) j ltac:(lra) ltac:(lra) ltac:(lra) Hj) as Q. replace (t + (c - t)) with c in Q by ring.
    apply (Rle_trans _ _ _ Q). apply Rmult_le_compat_l; lra. }
  set (T' := Rabs T). set (C1 := L * M). assert (PC : 0 <= C1) by now apply Rmult_le_pos. set (E := (C1 + L * M + L * 0) * T' * exp (L * T')).
  assert (PE : 0 <= E).
  { unfold E. apply Rmult_le_pos; [apply Rmult_le_pos; [|apply Rabs_pos]|left; apply exp_pos]. fold C1. lra. }
  exists (E + 0), (/ (2 * (M + 0 + E + 1))). split; [lra|]. split; [apply Rinv_0_lt_compat; lra|]. intros me h ts Hg Hh0.
  pose proof Hg as (Hne & Hh & H0 & HT & Hst). destruct (small_step M 0 E h PM (Rle_refl 0) PE Hh Hh0) as (S1 & S2 & S3).
  destruct ts as [|t ts]; [contradiction|]. cbn [nth] in H0. subst t.
  destruct (integrate_rows _ _ _ me x0 0 ts FC L0) as (xs & xds & Ei & Lxs & X0 & Xl & Xs).
  exists xs, xds, (map X (0 :: ts)), (map Xd (0 :: ts)). split; [exact Ei|]. split; [apply EA|]. split; [now rewrite map_length|].
  intros k i Hk Hlt. rewrite Lxs in Hk. pose proof (grid_mono T h _ Hg) as GM.
  assert (NX : forall k, (k < S (length ts))%nat -> nth k (map X (0 :: ts)) [] = X (nth k (0 :: ts) 0)) by (intros; now rewrite (nth_map_l _ _ _ 0)).
  apply (global_bound n F) with (irr := fun _ => false) (B := B) (L := L) (M := M) (X := fun k => nth k (map X (0 :: ts)) []) (Z := fun k => nth k xs [])
    (t := fun k => nth k (0 :: ts) 0) (N := length ts) (meth := me) (h := h) (c := 0) (C1 := C1) (T := T'); trivial; try lra.
  + intros x Hx. now apply FC.
  + intros x y e j Hx Hy He Hj _. now apply HL.
  + intros k' Hk'. rewrite NX by lia. split; [apply LX|]. intros j Hj. apply (HB j Hj (nth k' (0 :: ts) 0)). apply GM. cbn; lia.
  + intros k' Hk'. apply Hst. cbn; lia.
  + change (nth (length ts) (0 :: ts) 0 - 0 <= T'). destruct (GM (length ts) ltac:(cbn; lia)) as [_ G2]. pose proof (Rle_abs T). unfold T'. lra.
  + rewrite X0, NX by lia. cbn [nth]. now symmetry.
  + intros k' Hk'. apply Xs. lia.
  + intros k' j Hk' Hj _. rewrite !NX by lia. set (a := nth k' (0 :: ts) 0). set (b := nth (S k') (0 :: ts) 0).
    assert (Ha : 0 <= a <= T) by (apply GM; cbn; lia). assert (Hb : 0 <= b <= T) by (apply GM; cbn; lia).
    assert (Hab : 0 <= b - a <= h) by (apply Hst; cbn; lia).
    pose proof (Quad a (b - a) j ltac:(lra) ltac:(lra) ltac:(lra) Hj) as Q. replace (a + (b - a)) with b in Q by ring. exact Q.
  + discriminate.
  + replace ((C1 + L * M + L * 0) * h * T' * exp (L * T')) with (E * h) by (unfold E; ring). exact S3.
  + lia.
Qed.

Lemma nth_skip {A} (l : list A) : forall k i d, nth i (skipn k l) d = nth (k + i) l d.
Proof. induction l as [|a l IH]; intros [|k] i d; cbn; trivial; try (now destruct i); apply IH. Qed.

(** the critically damped spring *)
Lemma spring_error s T : let n := d_dimy s in
  0 < d_tau s -> length (d_init s) = (2 * n)%nat -> length (d_attr s) = n ->
  par_ok (d_damp s) n -> par_ok (d_spring s) n -> par_ok (d_mass s) n ->
  (forall i, (i < n)%nat -> 0 < par_val (d_mass s) i /\ 0 < par_val (d_spring s) i /\
     par_val (d_damp s) i = 2 * sqrt (par_val (d_mass s) i * par_val (d_spring s) i)) ->
  (d_tau s = 1 \/ forall i, (i < n)%nat -> nth (n + i) (d_init s) 0 = 0) ->
  exists C h0, 0 <= C /\ 0 < h0 /\ forall me h ts, sampling T h ts -> h <= h0 -> exists xs xds ys yds,
    integrate (d_diffeq s) (2 * n) me (d_init s) ts = Ok (xs, xds) /\ d_ana s ts = Ok (ys, yds) /\ within (C * h) (2 * n) xs ys.
Proof.
  intros n Ht Li La Hd Hk Hm Hp Hr. destruct (DynProofs7.spring_exact s Ht Li La Hd Hk Hm Hp Hr) as (X & Xd & Sv & _).
  set (F := fun x => (map (fun v => v / d_tau s) (skipn n x) ++
     map (fun i => (- par_val (d_spring s) i * (nth i (firstn n x) 0 - nth i (d_attr s) 0) - par_val (d_damp s) i * nth i (skipn n x) 0)
                   / (par_val (d_mass s) i * d_tau s)) (seq 0 n))%list).
  assert (FC : computes (d_diffeq s) (2 * n) F).
  { intros x Hx. assert (L1 : length (firstn n x) = n) by (rewrite firstn_length; lia). assert (L2 : length (skipn n x) = n) by (rewrite skipn_length; lia). split.
    - unfold F. rewrite <- (firstn_skipn n x) at 1. rewrite (d_diffeq_ok s); trivial; [lra|]. intros i Hi. pose proof (Hp i Hi). lra.
    - unfold F. rewrite app_length, !map_length, seq_length, L2. lia. }
  apply (smooth_error (d_diffeq s) (d_ana s) (2 * n) F (d_init s) X Xd T FC Li Sv).
  intros j Hj. destruct (Nat.lt_ge_cases j n) as [Hlt|Hge].
  - assert (V : vlip (2 * n) (fun x => nth (n + j) x 0 * / d_tau s)).
    { apply vlip_mult; [|apply vlip_const]. apply vlip_proj. lia. }
    intros B. destruct (V B) as (L & PL & HL). exists L. split; [trivial|]. intros x y e Hx Hy He.
    assert (Q : forall x, length x = (2 * n)%nat -> nth j (F x) 0 = nth (n + j) x 0 * / d_tau s).
    { intros z Hz. unfold F. rewrite app_nth1 by (rewrite map_length, skipn_length; lia). rewrite (nth_map_l (fun v => v / d_tau s) _ _ 0) by (rewrite skipn_length; lia). now rewrite nth_skip. }
    rewrite !Q by (apply Hx || apply Hy). now apply HL.
  - set (i := (j - n)%nat). set (k := par_val (d_spring s) i). set (d := par_val (d_damp s) i). set (m := par_val (d_mass s) i). set (g := nth i (d_attr s) 0).
    assert (V : vlip (2 * n) (fun x => - k / (m * d_tau s) * nth i x 0 + (- d / (m * d_tau s) * nth (n + i) x 0 + k * g / (m * d_tau s)))).
    { apply vlip_plus; [apply vlip_mult; [apply vlip_const|apply vlip_proj; unfold i; lia]|].
      apply vlip_plus; [|apply vlip_const]. apply vlip_mult; [apply vlip_const|apply vlip_proj; unfold i; lia]. }
    intros B. destruct (V B) as (L & PL & HL). exists L. split; [trivial|]. intros x y e Hx Hy He.
    assert (Q : forall x, length x = (2 * n)%nat -> nth j (F x) 0 = - k / (m * d_tau s) * nth i x 0 + (- d / (m * d_tau s) * nth (n + i) x 0 + k * g / (m * d_tau s))).
    { intros z Hz. unfold F. rewrite app_nth2 by (rewrite map_length, skipn_length; lia). rewrite map_length, skipn_length. replace (j - (length z - n))%nat with i by (unfold i; lia).
      rewrite nth_map_seq by (unfold i; lia). rewrite nth_skip, nth_firstn_lt by (unfold i; lia). fold k d m g. unfold Rdiv. ring. }
    rewrite !Q by (apply Hx || apply Hy). now apply HL.
Qed.
