(** The planar arm and the task with gains. *)
From Coq Require Import String.
From Verif Require Import Base BaseLemmas TrajModel TrajSpec TrajProofs TrajProofs2 TrajProofs3 TrajProofs4 DmpModel TaskModel TaskSpec TaskProofs TaskProofs2.
Open Scope R_scope.

(** ** positions of the joints *)
Lemma sumn_S_front n f : sumn (S n) f = f 0%nat + sumn n (fun i => f (S i)).
Proof. induction n as [|n IH]; [cbn; ring|]. change (sumn (S (S n)) f) with (sumn (S n) f + f (S n)). rewrite IH. cbn [sumn]. ring. Qed.

Lemma links_ok : forall angles lens s x y, length lens = length angles -> exists ps, links s x y angles lens = Ok ps /\ length ps = (2 * length angles)%nat /\
  forall k, (k < length angles)%nat ->
    nth (2 * k) ps 0 = x + sumn (S k) (fun i => point lens i * cos (s + direction (point angles) i)) /\
    nth (2 * k + 1) ps 0 = y + sumn (S k) (fun i => point lens i * sin (s + direction (point angles) i)).
Proof.
  induction angles as [|a angles IH]; intros lens s x y H; destruct lens as [|l lens]; try discriminate; cbn [links].
  { exists []. split; [reflexivity|]. split; [reflexivity|]. cbn. lia. }
  injection H as H. destruct (IH lens (s + a) (x + cos (s + a) * l) (y + sin (s + a) * l) H) as (ps & E & L & P). rewrite E. cbn [bind].
  eexists. split; [reflexivity|]. cbn [length]. split; [lia|].
  assert (D0 : direction (point (a :: angles)) 0 = a) by (unfold direction, point; cbn; ring).
  assert (DS : forall i, direction (point (a :: angles)) (S i) = a + direction (point angles) i).
  { intros i. unfold direction. rewrite sumn_S_front. unfold point at 1. cbn [nth]. reflexivity. }
  intros [|k] Hk.
  - cbn [Nat.mul Nat.add nth sumn]. rewrite D0. unfold point. cbn [nth]. split; ring.
  - cbn in Hk. destruct (P k ltac:(lia)) as (P1 & P2).
    replace (2 * S k)%nat with (S (S (2 * k))) by lia. replace (S (S (2 * k)) + 1)%nat with (S (S (2 * k + 1))) by lia. cbn [nth]. rewrite P1, P2.
    rewrite !(sumn_S_front (S k)). rewrite D0. change (point (l :: lens) 0) with l. split.
    + rewrite Rplus_assoc. f_equal. f_equal; [ring|]. apply sumn_ext. intros i Hi. change (point (l :: lens) (S i)) with (point lens i). rewrite DS. f_equal. f_equal. ring.
    + rewrite Rplus_assoc. f_equal. f_equal; [ring|]. apply sumn_ext. intros i Hi. change (point (l :: lens) (S i)) with (point lens i). rewrite DS. f_equal. f_equal. ring.
Qed.
Lemma row_ok angles lens : length lens = length angles -> exists ps, links 0 0 0 angles lens = Ok ps /\ length (0 :: 0 :: ps) = (2 * (length angles + 1))%nat /\
  forall k, (k <= length angles)%nat ->
    nth (2 * k) (0 :: 0 :: ps) 0 = joint_x (point angles) (point lens) k /\ nth (2 * k + 1) (0 :: 0 :: ps) 0 = joint_y (point angles) (point lens) k.
Proof.
  intros H. destruct (links_ok angles lens 0 0 0 H) as (ps & E & L & P). exists ps. split; [exact E|]. split; [cbn [length]; lia|].
  intros [|k] Hk; [now cbn|]. replace (2 * S k)%nat with (S (S (2 * k))) by lia. replace (S (S (2 * k)) + 1)%nat with (S (S (2 * k + 1))) by lia. cbn [nth].
  destruct (P k ltac:(lia)) as (-> & ->). unfold joint_x, joint_y. split; rewrite Rplus_0_l; apply sumn_ext; intros i Hi; now rewrite Rplus_0_l.
Qed.
Lemma links_positions n d angles lens : samples n d angles -> length lens = d -> exists P, angles_to_link_positions angles lens = Ok P /\ samples n (2 * (d + 1)) P /\
  forall r k, (r < n)%nat -> (k <= d)%nat ->
    at2 P r (2 * k) = joint_x (at2 angles r) (point lens) k /\ at2 P r (2 * k + 1) = joint_y (at2 angles r) (point lens) k.
Proof.
  intros (C & N & F) Hl. unfold angles_to_link_positions.
  assert (E : exists rows, mapM (fun r => let* ps := links 0 0 0 r lens in Ok (0 :: 0 :: ps)) (mrows angles) = Ok rows /\ length rows = length (mrows angles) /\
    forall i, (i < length (mrows angles))%nat -> length (nth i rows []) = (2 * (d + 1))%nat /\ forall k, (k <= d)%nat ->
      nth (2 * k) (nth i rows []) 0 = joint_x (point (nth i (mrows angles) [])) (point lens) k /\ nth (2 * k + 1) (nth i rows []) 0 = joint_y (point (nth i (mrows angles) [])) (point lens) k).
  { clear N. revert F. generalize (mrows angles). induction l as [|r l IH]; intros F.
    - exists []. split; [reflexivity|]. split; [reflexivity|]. cbn. lia.
    - cbn [mapM]. assert (Lr : length r = d) by (apply F; now left). destruct (row_ok r lens ltac:(lia)) as (ps & E1 & E2 & E3). rewrite E1. cbn [bind].
      destruct IH as (rows & E & Lrows & X); [intros; apply F; now right|]. rewrite E. cbn [bind]. exists ((0 :: 0 :: ps) :: rows). split; [reflexivity|].
      split; [cbn; lia|]. rewrite Lr in *. intros [|i] Hi; [split; [exact E2|exact E3]|]. cbn in Hi. destruct (X i ltac:(lia)) as (X1 & X2). split; [exact X1|exact X2]. }
  destruct E as (rows & E & L & X). rewrite E. cbn [bind]. eexists. split; [reflexivity|]. rewrite C. split.
  - split; [reflexivity|]. cbn [mrows]. split; [congruence|]. intros r Hr. destruct (In_nth_lt _ _ [] Hr) as (i & Hi & <-). apply (X i). now rewrite <- L.
  - intros r k Hr Hk. unfold at2. cbn [mrows]. destruct (X r ltac:(lia)) as (_ & X2). exact (X2 k Hk).
Qed.

(** geometry *)
Lemma link_length a l k : (joint_x a l (S k) - joint_x a l k) ^ 2 + (joint_y a l (S k) - joint_y a l k) ^ 2 = l k ^ 2.
Proof.
  unfold joint_x, joint_y. cbn [sumn]. set (X := sumn k _). set (Y := sumn k _). pose proof (sin2_cos2 (direction a k)) as T. unfold Rsqr in T.
  transitivity (l k ^ 2 * (sin (direction a k) * sin (direction a k) + cos (direction a k) * cos (direction a k))); [ring|]. rewrite T. ring.
Qed.
Lemma norm_triangle a b c d : sqrt ((a + c) ^ 2 + (b + d) ^ 2) <= sqrt (a ^ 2 + b ^ 2) + sqrt (c ^ 2 + d ^ 2).
Proof.
  pose proof (triangle 0 0 (a + c) (b + d) a b) as T. unfold dist_euc, Rsqr in T.
  replace ((a + c) ^ 2 + (b + d) ^ 2) with ((0 - (a + c)) * (0 - (a + c)) + (0 - (b + d)) * (0 - (b + d))) by ring.
  replace (a ^ 2 + b ^ 2) with ((0 - a) * (0 - a) + (0 - b) * (0 - b)) by ring.
  replace (c ^ 2 + d ^ 2) with ((a - (a + c)) * (a - (a + c)) + (b - (b + d)) * (b - (b + d))) by ring. exact T.
Qed.
Lemma reach_bound a l n : sqrt (joint_x a l n ^ 2 + joint_y a l n ^ 2) <= sumn n (fun i => Rabs (l i)).
Proof.
  induction n as [|n IH].
  { cbn [sumn]. unfold joint_x, joint_y. cbn [sumn]. replace (0 ^ 2 + 0 ^ 2) with 0 by ring. rewrite sqrt_0. lra. }
  unfold joint_x, joint_y. cbn [sumn]. fold (joint_x a l n) (joint_y a l n).
  pose proof (norm_triangle (joint_x a l n) (joint_y a l n) (l n * cos (direction a n)) (l n * sin (direction a n))) as T.
  replace ((l n * cos (direction a n)) ^ 2 + (l n * sin (direction a n)) ^ 2) with (Rsqr (l n)) in T.
  2: { pose proof (sin2_cos2 (direction a n)) as S. unfold Rsqr in *. transitivity (l n * l n * (sin (direction a n) * sin (direction a n) + cos (direction a n) * cos (direction a n))); [rewrite S; ring|ring]. }
  rewrite sqrt_Rsqr_abs in T. lra.
Qed.
Lemma far_point a l n (v : nat -> R) : dist 2 v (fun _ => 0) - sumn n (fun i => Rabs (l i)) <= dist 2 (arm_end n a l) v.
Proof.
  unfold dist. cbn [sumn arm_end]. pose proof (reach_bound a l n) as B.
  pose proof (norm_triangle (joint_x a l n) (joint_y a l n) (v 0%nat - joint_x a l n) (v 1%nat - joint_y a l n)) as T.
  replace (joint_x a l n + (v 0%nat - joint_x a l n)) with (v 0%nat) in T by ring. replace (joint_y a l n + (v 1%nat - joint_y a l n)) with (v 1%nat) in T by ring.
  replace (0 + (v 0%nat - 0) ^ 2 + (v 1%nat - 0) ^ 2) with (v 0%nat ^ 2 + v 1%nat ^ 2) by ring.
  replace (0 + (joint_x a l n - v 0%nat) ^ 2 + (joint_y a l n - v 1%nat) ^ 2) with ((v 0%nat - joint_x a l n) ^ 2 + (v 1%nat - joint_y a l n) ^ 2) by ring. lra.
Qed.

(** ** costs of the arm *)
Lemma arm_eval k t lens x : consistent t -> tj_misc t = None -> length lens = tj_dim t -> exists M E, arm_cost_vars t lens = Ok M /\
  arm_evaluate k (tj_dim t) M x = evaluate_local k (tj_ts t) E (tj_ydds t) x /\ length E = length (tj_ts t) /\ (forall r, In r E -> length r = 2%nat) /\
  forall r c, (r < length (tj_ts t))%nat -> (c < 2)%nat -> nth c (nth r E []) 0 = arm_end (tj_dim t) (at2 (tj_ys t) r) (point lens) c.
Proof.
  intros Hc Hm Hl. pose proof Hc as (Sy & _ & Sa & _). destruct (links_positions _ _ _ lens Sy Hl) as (P & EP & SP & XP).
  destruct (as_matrix_rows t Hc) as (M0 & EM & SM & _). destruct (as_matrix_entries t M0 Hc EM) as (_ & XM).
  assert (M00 : misc_cols t = 0%nat) by (unfold misc_cols; now rewrite Hm). rewrite M00, Nat.add_0_r in SM.
  destruct (stack_rows _ _ _ _ _ SM SP) as (M & E & SMM & XS). unfold arm_cost_vars. rewrite EP. cbn [bind]. rewrite EM. cbn [bind]. rewrite E.
  set (n := length (tj_ts t)) in *. set (d := tj_dim t) in *.
  exists M, (mrows (cols_of M (mcols M - 2) (mcols M))). split; [reflexivity|].
  pose proof SMM as (CM & NM & FM).
  assert (Ent : forall r j, (r < n)%nat -> at2 M r j = if Nat.ltb j (1 + 3 * d) then at2 M0 r j else at2 P r (j - (1 + 3 * d))).
  { intros r j Hr. unfold at2. rewrite (XS r Hr). assert (L0 : length (nth r (mrows M0) []) = (1 + 3 * d)%nat). { destruct SM as (_ & N0 & F0). apply F0, nth_In. lia. }
    destruct (Nat.ltb_spec j (1 + 3 * d)); [rewrite app_nth1 by lia|rewrite app_nth2 by lia; rewrite L0]; reflexivity. }
  unfold arm_evaluate. rewrite CM. destruct (Nat.eqb_spec (1 + d * 3 + (d + 1) * 2) (1 + 3 * d + 2 * (d + 1))); [|lia].
  split.
  { f_equal.
    - apply nth_ext with 0 0; [unfold col; now rewrite map_length|]. unfold col. rewrite map_length. intros r Hr. rewrite (nth_map_lt (fun r => nth 0 r 0) (mrows M) r [] 0) by exact Hr.
      change (nth 0 (nth r (mrows M) []) 0) with (at2 M r 0). rewrite Ent by lia. cbn [Nat.ltb Nat.leb]. now destruct (XM r ltac:(unfold n in *; lia)).
    - apply (samples_ext n d); [|exact Sa|].
      + replace d with (1 + d * 2 + d - (1 + d * 2))%nat at 1 by lia. apply cols_samples with (1 + 3 * d + 2 * (d + 1))%nat; [exact SMM|lia|lia].
      + intros r i Hr Hi. rewrite (at2_cols _ _ _ _ _ r i SMM Hr) by lia. rewrite Ent by exact Hr. destruct (Nat.ltb_spec (1 + d * 2 + i) (1 + 3 * d)); [|lia].
        destruct (XM r Hr) as (_ & X & _). destruct (X i Hi) as (_ & _ & <-). f_equal. fold d. lia. }
  assert (SE : samples n 2 (cols_of M (1 + 3 * d + 2 * (d + 1) - 2) (1 + 3 * d + 2 * (d + 1)))).
  { replace 2%nat with (1 + 3 * d + 2 * (d + 1) - (1 + 3 * d + 2 * (d + 1) - 2))%nat at 1 by lia. apply cols_samples with (1 + 3 * d + 2 * (d + 1))%nat; [exact SMM|lia|lia]. }
  pose proof SE as (_ & NE & FE). split; [exact NE|]. split; [exact FE|].
  intros r c Hr Hcc. fold (at2 (cols_of M (1 + 3 * d + 2 * (d + 1) - 2) (1 + 3 * d + 2 * (d + 1))) r c). rewrite (at2_cols _ _ _ _ _ r c SMM Hr) by lia. rewrite Ent by exact Hr.
  destruct (Nat.ltb_spec (1 + 3 * d + 2 * (d + 1) - 2 + c) (1 + 3 * d)); [lia|].
  destruct (XP r d Hr (le_n _)) as (X0 & X1). destruct c as [|[|c]]; [| |lia]; cbn [arm_end].
  - replace (1 + 3 * d + 2 * (d + 1) - 2 + 0 - (1 + 3 * d))%nat with (2 * d)%nat by lia. exact X0.
  - replace (1 + 3 * d + 2 * (d + 1) - 2 + 1 - (1 + 3 * d))%nat with (2 * d + 1)%nat by lia. exact X1.
Qed.
Theorem arm_costs k t lens x : consistent t -> tj_misc t = None -> (0 < tj_dim t)%nat -> length lens = tj_dim t -> tj_ts t <> [] -> length (k_via k) = 2%nat -> goal_ready k (tj_ts t) ->
  exists M cs, arm_cost_vars t lens = Ok M /\ arm_evaluate k (tj_dim t) M x = Ok cs /\
    costs_are k (tj_ts t) (fun r => arm_end (tj_dim t) (at2 (tj_ys t) r) (point lens)) (at2 (tj_ydds t)) (tj_dim t) x cs.
Proof.
  intros Hc Hm Hd Hl Hne Hv Hg. destruct (arm_eval k t lens x Hc Hm Hl) as (M & E & EM & Ev & LE & RE & XE). pose proof Hc as (_ & _ & Sa & _).
  destruct (evaluate_local_ok k (tj_ts t) E (tj_ydds t) (tj_dim t) x) as (cs & Ec & H); trivial.
  { intros r Hr. rewrite Hv. now apply RE. }
  exists M, cs. split; [exact EM|]. split; [now rewrite Ev|]. revert H. apply costs_ext; [exact Hne| |].
  - intros i j Hi Hj. rewrite Hv in Hj. unfold ent. now apply XE.
  - reflexivity.
Qed.
Theorem arm_unreachable k t lens x M cs : consistent t -> tj_misc t = None -> (0 < tj_dim t)%nat -> length lens = tj_dim t -> tj_ts t <> [] -> length (k_via k) = 2%nat -> goal_ready k (tj_ts t) ->
  0 < k_wv k -> arm_cost_vars t lens = Ok M -> arm_evaluate k (tj_dim t) M x = Ok cs ->
  k_wv k * (dist 2 (point (k_via k)) (fun _ => 0) - rsum (map Rabs lens) - Rmax 0 (k_radius k)) <= nth 1 cs 0.
Proof.
  intros Hc Hm Hd Hl Hne Hv Hg W EM Ev. destruct (arm_costs k t lens x Hc Hm Hd Hl Hne Hv Hg) as (M' & cs' & EM' & Ev' & (_ & _ & V & _)).
  assert (M' = M) by congruence. subst M'. assert (cs' = cs) by congruence. subst cs'. destruct (V W) as (w & _ & ->). rewrite Hv.
  apply Rmult_le_compat_l; [lra|]. eapply Rle_trans; [|apply Rmax_r]. apply Rplus_le_compat_r.
  pose proof (far_point (at2 (tj_ys t) w) (point lens) (tj_dim t) (point (k_via k))) as F.
  replace (rsum (map Rabs lens)) with (sumn (tj_dim t) (fun i => Rabs (point lens i))); [exact F|].
  rewrite rsum_nth, map_length, Hl. apply sumn_ext. intros i Hi. unfold point. symmetry. apply (nth_map_lt Rabs lens i 0 0). lia.
Qed.

(** ** the task with gains *)
Lemma sum_entries n c A (f : R -> R) : samples n c A -> rsum (map (fun r => rsum (map f r)) (mrows A)) = sumn n (fun i => sumn c (fun j => f (at2 A i j))).
Proof.
  intros (C & N & S). rewrite rsum_nth, map_length, N. apply sumn_ext. intros i Hi.
  rewrite (nth_map_lt (fun r => rsum (map f r)) _ i [] 0) by lia.
  assert (L : length (nth i (mrows A) []) = c) by (apply S, nth_In; lia).
  rewrite rsum_nth, map_length, L. apply sumn_ext. intros j Hj. rewrite (nth_map_lt f _ j 0 0) by lia. reflexivity.
Qed.
Theorem gains_costs k n c m : let d := length (g_via k) in samples n c m -> (1 + 4 * d <= c)%nat -> (0 < n)%nat -> g_max k <> 0 -> exists w cs,
  gains_evaluate k m = Ok cs /\ length cs = 4%nat /\ nth 0 cs 0 = nth 1 cs 0 + nth 2 cs 0 + nth 3 cs 0 /\
  counts d (point (g_via k)) (Some (g_time k)) (map (fun i => at2 m i 0) (seq 0 n)) (fun i j => at2 m i (1 + j)) w /\
  nth 1 cs 0 = g_wv k * dist d (fun j => at2 m w (1 + j)) (point (g_via k)) /\
  nth 2 cs 0 = g_wa k * sumn n (fun i => sumn d (fun j => Rabs (at2 m i (1 + 2 * d + j)))) / INR n /\
  nth 3 cs 0 = g_wg k * ((sumn n (fun i => sumn d (fun j => at2 m i (1 + 3 * d + j))) - g_min k) / (INR n * g_max k)).
Proof.
  intros d Hm Hc Hn Hmax. pose proof Hm as (C & N & F). unfold gains_evaluate. fold d.
  destruct (Nat.eqb_spec (mcols m) 0); [lia|]. set (ts := col 0 (mrows m)).
  assert (Ets : ts = map (fun i => at2 m i 0) (seq 0 n)).
  { unfold ts, col. rewrite (list_eq_map_nth [] (mrows m)) at 1. rewrite map_map, N. reflexivity. }
  assert (Lts : length ts = n) by (rewrite Ets, map_length, seq_length; reflexivity).
  assert (Sy : samples n d (cols_of m 1 (1 + d))). { replace d with (1 + d - 1)%nat at 1 by lia. apply cols_samples with c; [exact Hm|lia|lia]. }
  assert (Sa : samples n d (cols_of m (1 + d * 2) (1 + d * 3))). { replace d with (1 + d * 3 - (1 + d * 2))%nat at 1 by lia. apply cols_samples with c; [exact Hm|lia|lia]. }
  assert (Sg : samples n d (cols_of m (1 + d * 3) (1 + d * 4))). { replace d with (1 + d * 4 - (1 + d * 3))%nat at 1 by lia. apply cols_samples with c; [exact Hm|lia|lia]. }
  pose proof Sy as (_ & Ny & Fy).
  assert (W : exists w, (w < n)%nat /\ argmax_ge ts (g_time k) = w /\ counts d (point (g_via k)) (Some (g_time k)) ts (fun i j => at2 m i (1 + j)) w).
  { unfold argmax_ge. pose proof (find_ge_spec ts (g_time k)) as G. destruct (find_ge ts (g_time k)) as [w|].
    - destruct G as (G1 & G2 & G3). exists w. split; [lia|]. split; [reflexivity|]. left. auto.
    - exists 0%nat. split; [lia|]. split; [reflexivity|]. right. auto. }
  destruct W as (w & Hw & Ew & Cw). rewrite Ew. rewrite <- Ets.
  assert (Hts : ts <> []) by (intros E; rewrite E in Lts; cbn in Lts; lia). destruct ts as [|t0 ts0] eqn:Q; [easy|]. rewrite <- Q in *.
  rewrite (nth_res_ok _ w []) by lia. cbn [bind].
  assert (Ly : length (nth w (mrows (cols_of m 1 (1 + d))) []) = length (g_via k)) by (apply Fy, nth_In; lia).
  rewrite (vsub_ok _ _ Ly). cbn [bind]. rewrite (norm_sub _ _ Ly). fold d.
  replace (nrows m) with n by (unfold nrows; now symmetry).
  destruct (Req_EM_T (INR n * g_max k) 0) as [Z|Z]. { apply Rmult_integral in Z. destruct Z as [Z|Z]; [|contradiction]. apply (not_INR n 0) in Z; [easy|lia]. }
  eexists w, _. split; [reflexivity|]. cbn [length nth rsum]. split; [reflexivity|]. split; [ring|]. split; [exact Cw|].
  split. { f_equal. apply dist_ext. intros i Hi. unfold point. fold (at2 (cols_of m 1 (1 + d)) w i). now rewrite (at2_cols _ _ _ _ _ w i Hm Hw) by lia. }
  rewrite (sum_entries n d _ Rabs Sa), (sum_entries n d _ (fun x => x) Sg). split.
  - do 2 f_equal. apply sumn_ext. intros i Hi. apply sumn_ext. intros j Hj. rewrite (at2_cols _ _ _ _ _ i j Hm Hi) by lia. do 2 f_equal. lia.
  - do 3 f_equal. apply sumn_ext. intros i Hi. apply sumn_ext. intros j Hj. rewrite (at2_cols _ _ _ _ _ i j Hm Hi) by lia. f_equal. lia.
Qed.
(** gains between the bounds *)
Lemma sumn_const n c : sumn n (fun _ => c) = INR n * c.
Proof. induction n as [|n IH]; [cbn; ring|]. cbn [sumn]. rewrite IH, S_INR. ring. Qed.
Theorem gains_bounds k n c m cs : let d := length (g_via k) in samples n c m -> (1 + 4 * d <= c)%nat -> (0 < n)%nat -> (0 < d)%nat -> 0 <= g_min k -> 0 < g_max k -> 0 <= g_wg k ->
  (forall i j, (i < n)%nat -> (j < d)%nat -> g_min k <= at2 m i (1 + 3 * d + j) <= g_max k) -> gains_evaluate k m = Ok cs -> 0 <= nth 3 cs 0 <= g_wg k * INR d.
Proof.
  intros d Hm Hc Hn Hd H0 H1 Hw B E. destruct (gains_costs k n c m Hm Hc Hn ltac:(lra)) as (w & cs' & E' & _ & _ & _ & _ & _ & G). assert (cs' = cs) by congruence. subst cs'.
  fold d in G. rewrite G. set (S := sumn n _).
  assert (Hn' : 1 <= INR n) by (apply (le_INR 1); lia). assert (Hd' : 1 <= INR d) by (apply (le_INR 1); lia).
  assert (L : INR n * (INR d * g_min k) <= S). { unfold S. rewrite <- sumn_const. apply sumn_le. intros i Hi. rewrite <- sumn_const. apply sumn_le. intros j Hj. now apply B. }
  assert (U : S <= INR n * (INR d * g_max k)). { unfold S. rewrite <- (sumn_const n). apply sumn_le. intros i Hi. rewrite <- (sumn_const d). apply sumn_le. intros j Hj. now apply B. }
  assert (P : 0 < INR n * g_max k) by (apply Rmult_lt_0_compat; lra).
  assert (Q : g_min k <= S). { eapply Rle_trans; [|exact L]. assert (1 * (1 * g_min k) <= INR n * (INR d * g_min k)); [|lra]. apply Rmult_le_compat; try lra. apply Rmult_le_compat_r; lra. }
  split.
  - apply Rmult_le_pos; [exact Hw|]. apply Rmult_le_pos; [lra|]. left. now apply Rinv_0_lt_compat.
  - apply Rmult_le_compat_l; [exact Hw|]. apply Rmult_le_reg_r with (INR n * g_max k); [exact P|]. unfold Rdiv. rewrite Rmult_assoc, Rinv_l by lra. rewrite Rmult_1_r. nra.
Qed.
(** minimal gains are not free *)
Theorem gains_minimal k n c m cs : let d := length (g_via k) in samples n c m -> (1 + 4 * d <= c)%nat -> (0 < n)%nat -> 0 < g_max k ->
  (forall i j, (i < n)%nat -> (j < d)%nat -> at2 m i (1 + 3 * d + j) = g_min k) -> gains_evaluate k m = Ok cs ->
  nth 3 cs 0 = g_wg k * (g_min k * (INR n * INR d - 1) / (INR n * g_max k)).
Proof.
  intros d Hm Hc Hn H1 B E. destruct (gains_costs k n c m Hm Hc Hn ltac:(lra)) as (w & cs' & E' & _ & _ & _ & _ & _ & G). assert (cs' = cs) by congruence. subst cs'.
  fold d in G. rewrite G. rewrite (sumn_ext n _ (fun _ => INR d * g_min k)). 2: { intros i Hi. rewrite <- sumn_const. apply sumn_ext. intros j Hj. now apply B. }
  rewrite sumn_const. do 2 f_equal. ring.
Qed.

(** ** goals that cannot be evaluated *)
Lemma goal_missed k ts ys A x g gt : 0 < k_wg k -> k_goal k = Some g -> k_goal_time k = Some gt -> length ys = length ts -> (forall i, (i < length ts)%nat -> nth i ts 0 < gt) ->
  forall cs, evaluate_local k ts ys A x <> Ok cs.
Proof.
  intros W Eg Et Hl Hb cs. unfold evaluate_local. destruct (viapoint_dist k ts ys); [|discriminate]. cbn [bind]. destruct (sum_ydd k A); [|discriminate]. cbn [bind].
  unfold delay_cost. rewrite Eg, Et. destruct (Rlt_dec 0 (k_wg k)); [|lra]. rewrite (after_late gt ts ys Hl).
  assert (late gt ts = []) as ->. { destruct (late gt ts) as [|i l] eqn:E; [reflexivity|]. assert (I : In i (late gt ts)) by (rewrite E; now left). apply late_iff in I as (I1 & I2). specialize (Hb i I1). lra. }
  cbn. destruct (Rlt_dec 0 (k_wa k)); discriminate.
Qed.
Lemma goal_untimed k ts ys A x g : 0 < k_wg k -> k_goal k = Some g -> k_goal_time k = None -> forall cs, evaluate_local k ts ys A x <> Ok cs.
Proof.
  intros W Eg Et cs. unfold evaluate_local. destruct (viapoint_dist k ts ys); [|discriminate]. cbn [bind]. destruct (sum_ydd k A); [|discriminate]. cbn [bind].
  unfold delay_cost. rewrite Eg, Et. destruct (Rlt_dec 0 (k_wg k)); [discriminate|lra].
Qed.
