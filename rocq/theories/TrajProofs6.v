(** Proofs about trajectories: polynomials (C61-C63). *)
From Coquelicot Require Import Coquelicot.
From Verif Require Import Base BaseLemmas TrajModel TrajSpec TrajProofs TrajProofs2 TrajProofs4.
Open Scope R_scope.

Definition table (d : nat) (f : nat -> R -> R) (ts : list R) : mat := Mat d (map (fun t => map (fun i => f i t) (seq 0 d)) ts).
Lemma table_samples d f ts : samples (length ts) d (table d f ts).
Proof.
  split; [reflexivity|]. cbn. rewrite map_length. split; [reflexivity|]. intros r H. apply in_map_iff in H. destruct H as (t & <- & _). now rewrite map_length, seq_length.
Qed.
Lemma table_at d f ts k i : (k < length ts)%nat -> (i < d)%nat -> at2 (table d f ts) k i = f i (nth k ts 0).
Proof.
  intros Hk Hi. unfold at2. cbn [table mrows]. rewrite (nth_indep _ nil (map (fun i => f i 0) (seq 0 d))) by (rewrite map_length; trivial).
  rewrite (map_nth (fun t => map (fun i => f i t) (seq 0 d))). now rewrite nth_map_seq.
Qed.
Lemma new_tables d f g h ts : exists t, new_traj ts (V2 (table d f ts)) (Some (V2 (table d g ts))) (Some (V2 (table d h ts))) None = Ok t /\
  consistent t /\ tj_ts t = ts /\ tj_dim t = d /\ tj_dt t = dt_mean ts /\ tj_misc t = None /\
  forall i, (i < d)%nat -> samples_of t i (f i) (g i) (h i).
Proof.
  pose proof (table_samples d f ts) as S1. pose proof (table_samples d g ts) as S2. pose proof (table_samples d h ts) as S3.
  destruct S1 as (C1 & N1 & H1), S2 as (C2 & N2 & H2), S3 as (C3 & N3 & H3). unfold new_traj. cbn [rows_of]. unfold nrows. rewrite N1, Nat.eqb_refl. cbn [column bind derivative].
  unfold same_shape, nrows. rewrite N1, N2, N3, C1, C2, C3, !Nat.eqb_refl. cbn [andb bind]. eexists. split; [reflexivity|].
  split. { unfold consistent. cbn [tj_ts tj_dim tj_ys tj_yds tj_ydds tj_misc]. split; [apply table_samples|]. split; [apply table_samples|]. split; [apply table_samples|]. discriminate. }
  cbn [tj_ts tj_dim tj_ys tj_yds tj_ydds tj_misc tj_dt]. do 4 (split; [reflexivity|]). intros i Hi k Hk. cbn [tj_ts tj_ys tj_yds tj_ydds] in *. now rewrite !table_at.
Qed.

Section Poly.
Variables (t0 D : R).
Hypothesis HD : D <> 0.
Lemma p_derive p s : is_derive (fun t => p_y p ((t - t0) / D)) s (p_yd p ((s - t0) / D) / D).
Proof. unfold p_y, p_yd. auto_derive; [trivial|]. field. exact HD. Qed.
Lemma p_derive2 p s : is_derive (fun t => p_yd p ((t - t0) / D) / D) s (p_ydd p ((s - t0) / D) / D ^ 2).
Proof. unfold p_yd, p_ydd. auto_derive; [trivial|]. field. exact HD. Qed.
End Poly.
Lemma poly_start t0 D y v a y' v' a' : D <> 0 -> let p := coeffs y v a y' v' a' in
  p_y p ((t0 - t0) / D) = y /\ p_yd p ((t0 - t0) / D) / D = v / D /\ p_ydd p ((t0 - t0) / D) / D ^ 2 = a / D ^ 2.
Proof. intros H. cbv zeta. replace ((t0 - t0) / D) with 0 by (field; exact H). unfold p_y, p_yd, p_ydd, coeffs. cbn [c0 c1 c2 c3 c4 c5]. repeat split; try (field; exact H); try lra. Qed.
Lemma poly_end t0 te y v a y' v' a' : te - t0 <> 0 -> let p := coeffs y v a y' v' a' in let D := te - t0 in
  p_y p ((te - t0) / D) = y' - a / 2 /\ p_yd p ((te - t0) / D) / D = (v' - a) / D /\ p_ydd p ((te - t0) / D) / D ^ 2 = a' / D ^ 2.
Proof.
  intros H. cbv zeta. replace ((te - t0) / (te - t0)) with 1 by (field; exact H). unfold p_y, p_yd, p_ydd, coeffs. cbn [c0 c1 c2 c3 c4 c5].
  split; [lra|]. split; [f_equal; lra|f_equal; lra].
Qed.

Definition all_len (d : nat) (ls : list (list R)) : Prop := forall l, In l ls -> length l = d.
Lemma from_polynomial_ok ts y v a y' v' a' : all_len (length y) (v :: a :: y' :: v' :: a' :: nil) -> ts <> nil -> last ts 0 <> nth 0 ts 0 ->
  exists t, from_polynomial ts y v a y' v' a' = Ok t /\ consistent t /\ tj_ts t = ts /\ tj_dim t = length y /\ tj_dt t = dt_mean ts /\ tj_misc t = None /\
  let t0 := nth 0 ts 0 in let te := last ts 0 in let D := te - t0 in
  forall i, (i < length y)%nat -> exists Y Yd Ydd, samples_of t i Y Yd Ydd /\
    (forall s, is_derive Y s (Yd s) /\ is_derive Yd s (Ydd s)) /\
    Y t0 = nth i y 0 /\ Yd t0 = nth i v 0 / D /\ Ydd t0 = nth i a 0 / D ^ 2 /\
    Y te = nth i y' 0 - nth i a 0 / 2 /\ Yd te = (nth i v' 0 - nth i a 0) / D /\ Ydd te = nth i a' 0 / D ^ 2.
Proof.
  intros Hl Hne HD. unfold from_polynomial. destruct (forallb _ _) eqn:Ef.
  2: { exfalso. assert (T : forallb (fun l => Nat.eqb (length l) (length y)) (v :: a :: y' :: v' :: a' :: nil) = true); [|congruence].
       apply forallb_forall. intros l Hin. apply Nat.eqb_eq. now apply Hl. }
  destruct ts as [|t0 ts'] eqn:Ets; [contradiction|]. rewrite <- Ets in *. assert (E0 : nth 0 ts 0 = t0) by now rewrite Ets.
  destruct (Req_EM_T (last ts 0 - t0) 0) as [Hz|Hz]; [exfalso; apply HD; lra|].
  set (D := last ts 0 - t0) in *. set (P := fun i => coeffs (nth i y 0) (nth i v 0) (nth i a 0) (nth i y' 0) (nth i v' 0) (nth i a' 0)).
  assert (Tb : forall f, Mat (length y) (map (fun t => map (fun p => f p ((t - t0) / D)) (map P (seq 0 (length y)))) ts) = table (length y) (fun i t => f (P i) ((t - t0) / D)) ts).
  { intros f. unfold table. f_equal. apply map_ext. intros t. now rewrite map_map. }
  rewrite (Tb p_y), (Tb (fun p t => p_yd p t / D)), (Tb (fun p t => p_ydd p t / D ^ 2)).
  destruct (new_tables (length y) (fun i t => p_y (P i) ((t - t0) / D)) (fun i t => p_yd (P i) ((t - t0) / D) / D) (fun i t => p_ydd (P i) ((t - t0) / D) / D ^ 2) ts)
    as (t & E & Ct & T & Dm & DT & Mi & Sm).
  exists t. split; [exact E|]. split; [exact Ct|]. split; [exact T|]. split; [exact Dm|]. split; [exact DT|]. split; [exact Mi|].
  cbv zeta. rewrite E0. fold D. intros i Hi. eexists _, _, _. split; [exact (Sm i Hi)|]. split; [intros s; split; [now apply p_derive|now apply p_derive2]|]. cbv beta.
  destruct (poly_start t0 D (nth i y 0) (nth i v 0) (nth i a 0) (nth i y' 0) (nth i v' 0) (nth i a' 0) Hz) as (S1 & S2 & S3).
  destruct (poly_end t0 (last ts 0) (nth i y 0) (nth i v 0) (nth i a 0) (nth i y' 0) (nth i v' 0) (nth i a' 0) Hz) as (Q1 & Q2 & Q3).
  repeat split; assumption.
Qed.

(** ** minimum jerk *)
Definition mj (s : R) : R := 6 * s ^ 5 - 15 * s ^ 4 + 10 * s ^ 3.
Lemma mj_range s : 0 <= s <= 1 -> 0 <= mj s <= 1.
Proof.
  intros H. unfold mj. split.
  - replace (6 * s ^ 5 - 15 * s ^ 4 + 10 * s ^ 3) with (s ^ 3 * (6 * s ^ 2 - 15 * s + 10)) by ring. apply Rmult_le_pos; [apply pow_le; lra|]. nra.
  - assert (E : 1 - (6 * s ^ 5 - 15 * s ^ 4 + 10 * s ^ 3) = (1 - s) ^ 3 * (1 + 3 * s + 6 * s ^ 2)) by ring.
    assert (0 <= (1 - s) ^ 3 * (1 + 3 * s + 6 * s ^ 2)) by (apply Rmult_le_pos; [apply pow_le; lra|nra]). lra.
Qed.
Lemma mj_mono s r : 0 <= s -> s <= r -> mj s <= mj r.
Proof.
  intros H0 H. destruct (MVT_gen mj s r (fun x => 30 * x ^ 2 * (1 - x) ^ 2)) as (c & Hc & E).
  - intros x _. unfold mj. auto_derive; [trivial|]. ring.
  - intros x _. apply continuity_pt_filterlim. apply (ex_derive_continuous mj). exists (30 * x ^ 2 * (1 - x) ^ 2). unfold mj. auto_derive; [trivial|]. ring.
  - assert (0 <= 30 * c ^ 2 * (1 - c) ^ 2) by (apply Rmult_le_pos; [apply Rmult_le_pos; [lra|apply pow2_ge_0]|apply pow2_ge_0]). nra.
Qed.
Lemma from_min_jerk_ok ts y y' : length y' = length y -> ts <> nil -> last ts 0 <> 0 ->
  exists t, from_min_jerk ts y y' = Ok t /\ consistent t /\ tj_ts t = ts /\ tj_dim t = length y /\ tj_misc t = None /\
  forall i, (i < length y)%nat -> exists Y Yd Ydd, samples_of t i Y Yd Ydd /\
    (forall s, is_derive Y s (Yd s) /\ is_derive Yd s (Ydd s)) /\
    (forall s, Y s = nth i y 0 + (nth i y' 0 - nth i y 0) * mj (s / last ts 0)) /\
    Y 0 = nth i y 0 /\ Yd 0 = 0 /\ Ydd 0 = 0 /\ Y (last ts 0) = nth i y' 0 /\ Yd (last ts 0) = 0 /\ Ydd (last ts 0) = 0.
Proof.
  intros Hl Hne HD. unfold from_min_jerk. rewrite Hl, Nat.eqb_refl. destruct ts as [|t0 ts'] eqn:Ets; [contradiction|]. rewrite <- Ets in *.
  destruct (Req_EM_T (last ts 0) 0); [contradiction|]. set (D := last ts 0) in *.
  destruct (new_tables (length y) (fun i t => nth i y 0 + (nth i y' 0 - nth i y 0) * (6 * (t / D) ^ 5 - 15 * (t / D) ^ 4 + 10 * (t / D) ^ 3))
              (fun i t => (nth i y' 0 - nth i y 0) / D * (30 * (t / D) ^ 4 - 60 * (t / D) ^ 3 + 30 * (t / D) ^ 2))
              (fun i t => (nth i y' 0 - nth i y 0) / (D * D) * (120 * (t / D) ^ 3 - 180 * (t / D) ^ 2 + 60 * (t / D))) ts) as (t & E & Ct & T & Dm & DT & Mi & Sm).
  exists t. split; [exact E|]. split; [exact Ct|]. split; [exact T|]. split; [exact Dm|]. split; [exact Mi|]. intros i Hi.
  eexists _, _, _. split; [exact (Sm i Hi)|]. cbv beta. split.
  { intros s. split; auto_derive; try exact I; field; exact HD. }
  split; [intros s; unfold mj; ring|]. replace (0 / D) with 0 by (field; exact HD). replace (D / D) with 1 by (field; exact HD).
  repeat split; try (field; exact HD); try ring.
Qed.

(** ** via-points *)
Lemma steps_before_spec ts x k : increasing ts -> (k < length ts)%nat -> (0 < k)%nat -> nth (k - 1) ts 0 < x -> x <= nth k ts 0 -> steps_before ts x = k.
Proof.
  revert k. induction ts as [|t ts IH]; intros k Hi Hk H0 H1 H2; [cbn in Hk; lia|]. cbn.
  assert (Hi' : increasing ts). { intros i j Hij Hj. apply (Hi (S i) (S j)); cbn; lia. }
  destruct k as [|[|k]]; [lia| |].
  - cbn in H1, H2. destruct (Rlt_dec t x); [|contradiction]. f_equal. destruct ts as [|t1 ts]; [reflexivity|]. cbn in *. destruct (Rlt_dec t1 x); [lra|reflexivity].
  - assert (t < x). { specialize (Hi 0%nat (S (S k) - 1)%nat ltac:(lia) ltac:(lia)). change (nth 0 (t :: ts) 0) with t in Hi. lra. }
    destruct (Rlt_dec t x); [|contradiction]. f_equal. apply IH; trivial; [cbn in Hk; lia|lia|]. cbn in H1. cbn. now rewrite Nat.sub_0_r.
Qed.
Lemma increasing_firstn k ts : increasing ts -> increasing (firstn k ts).
Proof. intros H. rewrite <- (firstn_skipn k ts) in H. now apply increasing_app in H. Qed.
Lemma increasing_skipn k ts : increasing ts -> increasing (skipn k ts).
Proof. intros H. rewrite <- (firstn_skipn k ts) in H. now apply increasing_app in H. Qed.
Lemma increasing_ends ts : increasing ts -> (2 <= length ts)%nat -> nth 0 ts 0 < last ts 0.
Proof. intros H Hl. rewrite last_nth'. apply H; lia. Qed.
Lemma nth_part (l : list R) a d k : (k < d)%nat -> nth k (firstn d (skipn a l)) 0 = nth (a + k) l 0.
Proof.
  intros H. assert (F : forall (l : list R) b k, (k < b)%nat -> nth k (firstn b l) 0 = nth k l 0).
  { clear. induction l as [|x l IH]; intros [|b] [|k] H; cbn; try reflexivity; try lia. apply IH. lia. }
  rewrite F by trivial. clear. revert l k. induction a as [|a IH]; intros l k; [reflexivity|]. destruct l as [|x l]; [now destruct k|]. apply IH.
Qed.
Lemma nth_rep (d i : nat) : nth i (repeat 0 d) 0 = 0.
Proof. revert i. induction d; intros [|i]; cbn; auto. Qed.

Lemma viapoint_ok ts y via vt y' k : increasing ts -> (2 <= k)%nat -> (k + 2 <= length ts)%nat -> nth (k - 1) ts 0 < vt -> vt <= nth k ts 0 ->
  length via = (3 * length y)%nat -> length y' = length y -> exists t,
  from_viapoint_polynomial ts y via vt y' = Ok t /\ consistent t /\ tj_dim t = length y /\ length (tj_ts t) = length ts /\ increasing (tj_ts t) /\
  (forall d, equidistant d ts -> tj_ts t = ts) /\ firstn k (tj_ts t) = firstn k ts /\
  let n := length ts in let d := length y in
  forall i, (i < d)%nat ->
    at2 (tj_ys t) 0 i = nth i y 0 /\ at2 (tj_yds t) 0 i = 0 /\ at2 (tj_ydds t) 0 i = 0 /\
    at2 (tj_ys t) (k - 1) i = nth i via 0 /\ at2 (tj_ys t) k i = nth i via 0 /\
    at2 (tj_yds t) (k - 1) i = nth (d + i) via 0 / (nth (k - 1) ts 0 - nth 0 ts 0) /\
    at2 (tj_yds t) k i = nth (d + i) via 0 / (nth (n - 1) ts 0 - nth k ts 0) /\
    at2 (tj_ys t) (n - 1) i = nth i y' 0 - nth (2 * d + i) via 0 / 2 /\
    at2 (tj_yds t) (n - 1) i = - nth (2 * d + i) via 0 / (nth (n - 1) ts 0 - nth k ts 0) /\
    at2 (tj_ydds t) (n - 1) i = 0.
Proof.
  intros Hinc Hk2 Hkn Hv1 Hv2 Lv Ly'. unfold from_viapoint_polynomial. rewrite Lv, Nat.eqb_refl. rewrite (steps_before_spec ts vt k Hinc) by (trivial; lia).
  set (d := length y). set (z := repeat 0 d). set (vy := firstn d via). set (vyd := firstn d (skipn d via)). set (vydd := firstn d (skipn (2 * d) via)).
  assert (Lz : length z = d) by apply repeat_length. assert (L1 : length vy = d) by (unfold vy; rewrite firstn_length; unfold d; lia).
  assert (L2 : length vyd = d) by (unfold vyd; rewrite firstn_length, skipn_length; unfold d; lia).
  assert (L3 : length vydd = d) by (unfold vydd; rewrite firstn_length, skipn_length; unfold d; lia).
  assert (F1 : length (firstn k ts) = k) by (rewrite firstn_length; lia). assert (F2 : length (skipn k ts) = (length ts - k)%nat) by apply skipn_length.
  assert (I1 := increasing_firstn k ts Hinc). assert (I2 := increasing_skipn k ts Hinc).
  assert (D1 := increasing_ends _ I1 ltac:(lia)). assert (D2 := increasing_ends _ I2 ltac:(lia)).
  assert (N1 : nth 0 (firstn k ts) 0 = nth 0 ts 0) by (change (firstn k ts) with (firstn k (skipn 0 ts)); rewrite nth_part; [reflexivity|lia]).
  assert (N2 : last (firstn k ts) 0 = nth (k - 1) ts 0) by (rewrite last_nth', F1; change (firstn k ts) with (firstn k (skipn 0 ts)); rewrite nth_part; [reflexivity|lia]).
  assert (SK : forall q, nth q (skipn k ts) 0 = nth (k + q) ts 0).
  { clear. intros q. revert ts. induction k as [|k IH]; intros ts; [reflexivity|]. destruct ts as [|x ts]; [now destruct q|]. apply IH. }
  assert (N3 : nth 0 (skipn k ts) 0 = nth k ts 0) by (rewrite SK; f_equal; lia).
  assert (N4 : last (skipn k ts) 0 = nth (length ts - 1) ts 0) by (rewrite last_nth', F2, SK; f_equal; lia).
  assert (Q1 : firstn k ts <> nil) by (intros H; rewrite H in F1; cbn in F1; lia). assert (Q2 : skipn k ts <> nil) by (intros H; rewrite H in F2; cbn in F2; lia).
  destruct (from_polynomial_ok (firstn k ts) y z z vy vyd vydd) as (t1 & E1 & C1 & T1 & M1 & DT1 & MI1 & P1).
  { intros l Hl. cbn in Hl. fold d. destruct Hl as [<-|[<-|[<-|[<-|[<-|[]]]]]]; trivial. } { exact Q1. } { lra. }
  destruct (from_polynomial_ok (skipn k ts) vy vyd vydd y' z z) as (t2 & E2 & C2 & T2 & M2 & DT2 & MI2 & P2).
  { intros l Hl. cbn in Hl. rewrite L1. destruct Hl as [<-|[<-|[<-|[<-|[<-|[]]]]]]; trivial. } { exact Q2. } { lra. }
  rewrite E1. cbn [bind]. rewrite E2. cbn [bind].
  assert (Hd1 : exists dt, tj_dt t1 = Some dt /\ dt_mean (firstn k ts) = Some dt).
  { rewrite DT1, dt_mean_eq, F1. destruct k as [|[|k']]; [lia|lia|]. eexists. split; reflexivity. }
  destruct Hd1 as (dt & Hdt & Hdt'). pose proof (dt_mean_pos _ _ I1 Hdt') as Hpos.
  destruct (append_ok t1 t2 dt C1 C2) as (t & Ea & Ct & (J1 & J2 & J3 & _) & Dm & _ & T); trivial.
  { split; [rewrite M1, M2; fold d; congruence|]. rewrite MI1. exact I. } { now rewrite T1. } { now rewrite T2. }
  rewrite Ea. exists t. split; [reflexivity|]. split; [exact Ct|]. split; [rewrite Dm; exact M1|]. rewrite T, T1, T2, N2, N3.
  split; [rewrite app_length; unfold shifted; rewrite map_length, F1, F2; lia|].
  split. { rewrite <- N2, <- N3. now apply append_increasing. }
  split.
  { intros dd He. rewrite (dt_mean_equi _ dd) in Hdt'; [|intros q Hq; rewrite F1 in Hq; change (firstn k ts) with (firstn k (skipn 0 ts)); rewrite !nth_part by lia; apply He; lia|lia].
    injection Hdt' as <-. specialize (He (k - 1)%nat ltac:(lia)). replace (S (k - 1)) with k in He by lia. replace (nth (k - 1) ts 0 + dd - nth k ts 0) with 0 by lra.
    rewrite <- (firstn_skipn k ts) at 3. f_equal. unfold shifted. rewrite <- (map_id (skipn k ts)) at 2. apply map_ext. intros x. lra. }
  split. { rewrite firstn_app, F1, Nat.sub_diag, firstn_O, app_nil_r. apply firstn_all2. lia. }
  cbv zeta. fold d. intros i Hi. cbv zeta in P1, P2.
  assert (Row : forall (f : traj -> mat) q, mrows (f t) = (mrows (f t1) ++ mrows (f t2))%list -> length (mrows (f t1)) = k ->
     ((q < k)%nat -> at2 (f t) q i = at2 (f t1) q i) /\ ((k <= q)%nat -> at2 (f t) q i = at2 (f t2) (q - k) i)).
  { intros f q HJ HL. unfold at2. rewrite HJ. split; intros Hq; [now rewrite app_nth1 by lia|]. rewrite app_nth2 by lia. now rewrite HL. }
  assert (R1 : length (mrows (tj_ys t1)) = k) by (destruct C1 as ((_ & X & _) & _); rewrite X, T1; exact F1).
  assert (R2 : length (mrows (tj_yds t1)) = k) by (destruct C1 as (_ & (_ & X & _) & _); rewrite X, T1; exact F1).
  assert (R3 : length (mrows (tj_ydds t1)) = k) by (destruct C1 as (_ & _ & (_ & X & _) & _); rewrite X, T1; exact F1).
  rewrite (proj1 (Row tj_ys 0%nat J1 R1)), (proj1 (Row tj_yds 0%nat J2 R2)), (proj1 (Row tj_ydds 0%nat J3 R3)) by lia.
  rewrite (proj1 (Row tj_ys (k - 1)%nat J1 R1)), (proj1 (Row tj_yds (k - 1)%nat J2 R2)) by lia.
  rewrite (proj2 (Row tj_ys k J1 R1)), (proj2 (Row tj_yds k J2 R2)) by lia.
  rewrite (proj2 (Row tj_ys (length ts - 1)%nat J1 R1)), (proj2 (Row tj_yds (length ts - 1)%nat J2 R2)), (proj2 (Row tj_ydds (length ts - 1)%nat J3 R3)) by lia.
  destruct (P1 i Hi) as (Y & Yd & Ydd & Sm & _ & B1 & B2 & B3 & B4 & B5 & B6). rewrite L1 in P2. destruct (P2 i Hi) as (Z & Zd & Zdd & Sm' & _ & G1 & G2 & G3 & G4 & G5 & G6).
  unfold samples_of in Sm, Sm'. rewrite T1, F1 in Sm. rewrite T2, F2 in Sm'.
  destruct (Sm 0%nat ltac:(lia)) as (A1 & A2 & A3). destruct (Sm (k - 1)%nat ltac:(lia)) as (A4 & A5 & _).
  assert (X : nth (k - 1) (firstn k ts) 0 = last (firstn k ts) 0) by (rewrite last_nth', F1; reflexivity). rewrite X in A4, A5.
  destruct (Sm' (k - k)%nat ltac:(lia)) as (A7 & A8 & _). destruct (Sm' (length ts - 1 - k)%nat ltac:(lia)) as (A9 & A10 & A11).
  replace (k - k)%nat with 0%nat in * by lia.
  assert (X' : nth (length ts - 1 - k) (skipn k ts) 0 = last (skipn k ts) 0) by (rewrite last_nth', F2; f_equal; lia). rewrite X' in A9, A10, A11.
  rewrite A1, A2, A3, A4, A5, A7, A8, A9, A10, A11. rewrite B1, B2, B3, B4, B5, G1, G2, G4, G5, G6. rewrite N1, N2, N3, N4.
  unfold z. rewrite !nth_rep. assert (V1 : nth i vy 0 = nth i via 0) by (unfold vy; change via with (skipn 0 via) at 1; now rewrite nth_part).
  assert (V2 : nth i vyd 0 = nth (d + i) via 0) by (unfold vyd; now rewrite nth_part). assert (V3 : nth i vydd 0 = nth (2 * d + i) via 0) by (unfold vydd; now rewrite nth_part).
  rewrite V1, V2, V3. repeat split; lra.
Qed.
