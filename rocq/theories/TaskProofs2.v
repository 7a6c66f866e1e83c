(** Costs of trajectories and of samples of a DMP. *)
From Coq Require Import String.
From Verif Require Import Base BaseLemmas SessionModel ParamModel ParamSpec TrajModel TrajSpec TrajProofs TrajProofs2 TrajProofs3 TrajProofs4 DynModel
  DmpModel DmpSpec DmpProofs5 DmpProofs7 DmpProofs8 DmpProofs18 DmpProofs13 DmpProofs17 TaskModel TaskSpec TaskProofs.
Open Scope R_scope.

Lemma samples_ext n d a b : samples n d a -> samples n d b -> (forall k i, (k < n)%nat -> (i < d)%nat -> at2 a k i = at2 b k i) -> a = b.
Proof.
  intros (C1 & N1 & F1) (C2 & N2 & F2) H. apply mat_ext.
  - apply Forall_forall. intros r Hr. rewrite C1. now apply F1.
  - apply Forall_forall. intros r Hr. rewrite C2. now apply F2.
  - congruence.
  - unfold nrows. congruence.
  - unfold nrows. rewrite N1, C1. exact H.
Qed.
Lemma find_name_ok : forall names s j i, NoDup names -> nth_error names j = Some s -> find_name names s i = Ok (i + j)%nat.
Proof.
  induction names as [|a names IH]; intros s j i Hn Hj; [now destruct j|]. inversion Hn; subst. cbn [find_name].
  destruct j as [|j]; cbn [nth_error] in Hj.
  - injection Hj as ->. rewrite String.eqb_refl. f_equal. lia.
  - destruct (String.eqb_spec a s) as [->|]; [apply nth_error_In in Hj; contradiction|]. rewrite (IH s j (S i)) by assumption. f_equal. lia.
Qed.

Section Extract.
Variables (t : traj) (M : mat).
Hypothesis Hc : consistent t.
Hypothesis HM : as_matrix t = Ok M.
Let d := tj_dim t.
Let names := ("t"%string :: labels_of "y" d ++ labels_of "yd" d ++ labels_of "ydd" d ++ labels_of "misc" (misc_cols t))%list.
Lemma times_col : col 0 (mrows M) = tj_ts t.
Proof using Hc HM.
  destruct (as_matrix_entries t M Hc HM) as ((_ & N & _) & E). apply nth_ext with 0 0.
  - unfold col. now rewrite map_length.
  - unfold col. rewrite map_length. intros k Hk. rewrite (nth_map_lt (fun r => nth 0 r 0) (mrows M) k [] 0) by exact Hk.
    rewrite N in Hk. now destruct (E k Hk) as (E0 & _).
Qed.
Lemma cols_ys : cols_of M 1 (1 + d) = tj_ys t.
Proof using Hc HM.
  destruct (as_matrix_entries t M Hc HM) as (S & E). pose proof Hc as (Sy & _).
  apply (samples_ext (length (tj_ts t)) d).
  - replace d with (1 + d - 1)%nat at 1 by lia. apply cols_samples with (1 + 3 * tj_dim t + misc_cols t)%nat; [exact S|lia|unfold d; lia].
  - exact Sy.
  - intros k i Hk Hi. rewrite (at2_cols _ _ _ _ _ k i S Hk) by lia. destruct (E k Hk) as (_ & E1 & _). now destruct (E1 i Hi).
Qed.
Lemma cols_ydds : cols_of M (1 + d * 2) (1 + d * 3) = tj_ydds t.
Proof using Hc HM.
  destruct (as_matrix_entries t M Hc HM) as (S & E). pose proof Hc as (_ & _ & Sy & _).
  apply (samples_ext (length (tj_ts t)) d).
  - replace d with (1 + d * 3 - (1 + d * 2))%nat at 1 by lia. apply cols_samples with (1 + 3 * tj_dim t + misc_cols t)%nat; [exact S|lia|unfold d; lia].
  - exact Sy.
  - intros k i Hk Hi. rewrite (at2_cols _ _ _ _ _ k i S Hk) by lia. destruct (E k Hk) as (_ & E1 & _). destruct (E1 i Hi) as (_ & _ & <-). f_equal. unfold d. lia.
Qed.
Lemma frame_t : extract_t (CvFrame names M) = Ok (tj_ts t).
Proof using Hc HM. unfold extract_t, names. cbn [find_name String.eqb]. cbn. now rewrite times_col. Qed.
Lemma name_at s o : (forall i, (i < d)%nat -> nth_error names (o + i) = Some (nth i (labels_of s d) ""%string)) ->
  mapM (fun s => find_name names s 0) (labels_of s d) = Ok (map (fun i => (o + i)%nat) (seq 0 d)).
Proof using.
  intros H. rewrite (list_eq_map_nth ""%string (labels_of s d)). rewrite labels_len.
  assert (G : forall l, (forall i, In i l -> (i < d)%nat) ->
    mapM (fun s => find_name names s 0) (map (fun i => nth i (labels_of s d) ""%string) l) = Ok (map (fun i => (o + i)%nat) l)).
  { induction l as [|i l IH]; intros Hl; [reflexivity|]. cbn [map mapM].
    rewrite (find_name_ok names (nth i (labels_of s d) ""%string) (o + i) 0 (names_nodup d (misc_cols t)) (H i (Hl i (or_introl eq_refl)))).
    cbn [bind]. rewrite IH by (intros; apply Hl; now right). reflexivity. }
  apply G. intros i Hi. apply in_seq in Hi. lia.
Qed.
Lemma frame_block s o (m : mat) : (forall i, (i < d)%nat -> nth_error names (o + i) = Some (nth i (labels_of s d) ""%string)) ->
  samples (length (tj_ts t)) d m -> (forall k i, (k < length (tj_ts t))%nat -> (i < d)%nat -> at2 M k (o + i) = at2 m k i) ->
  frame_cols names M (labels_of s d) = Ok m.
Proof using Hc HM.
  intros H Hm Hat. unfold frame_cols. rewrite (name_at s o H). cbn [bind]. f_equal. rewrite labels_len.
  destruct (as_matrix_entries t M Hc HM) as ((_ & N & _) & _).
  apply (samples_ext (length (tj_ts t)) d); [|exact Hm|].
  - split; [reflexivity|]. cbn [mrows]. split; [now rewrite map_length|]. intros r Hr. apply in_map_iff in Hr as (r' & <- & _). now rewrite !map_length, seq_length.
  - intros k i Hk Hi. rewrite <- (Hat k i Hk Hi). unfold at2. cbn [mrows].
    rewrite (nth_map_lt (fun r => map (fun i => nth i r 0) (map (fun i => (o + i)%nat) (seq 0 d))) (mrows M) k [] []) by lia.
    rewrite map_map, (nth_map_seq (fun x => nth (o + x) (nth k (mrows M) []) 0)) by exact Hi. reflexivity.
Qed.
Lemma block_name a b s o : names = (a ++ labels_of s d ++ b)%list -> length a = o -> forall i, (i < d)%nat -> nth_error names (o + i) = Some (nth i (labels_of s d) ""%string).
Proof using.
  intros -> <- i Hi. rewrite nth_error_app2 by lia. replace (length a + i - length a)%nat with i by lia.
  rewrite nth_error_app1 by (rewrite labels_len; exact Hi). apply nth_error_nth'. now rewrite labels_len.
Qed.
Lemma frame_ys : frame_cols names M (labels_of "y" d) = Ok (tj_ys t).
Proof using Hc HM.
  destruct (as_matrix_entries t M Hc HM) as (S & E). pose proof Hc as (Sy & _). apply frame_block with 1%nat; [|exact Sy|].
  - apply block_name with ["t"%string] (labels_of "yd" d ++ labels_of "ydd" d ++ labels_of "misc" (misc_cols t))%list; reflexivity.
  - intros k i Hk Hi. destruct (E k Hk) as (_ & E1 & _). now destruct (E1 i Hi).
Qed.
Lemma frame_ydds : frame_cols names M (labels_of "ydd" d) = Ok (tj_ydds t).
Proof using Hc HM.
  destruct (as_matrix_entries t M Hc HM) as (S & E). pose proof Hc as (_ & _ & Sy & _). apply frame_block with (1 + 2 * d)%nat; [|exact Sy|].
  - apply block_name with ("t"%string :: labels_of "y" d ++ labels_of "yd" d)%list (labels_of "misc" (misc_cols t)).
    + unfold names. cbn [app]. now rewrite <- !app_assoc.
    + cbn [length]. rewrite app_length, !labels_len. lia.
  - intros k i Hk Hi. destruct (E k Hk) as (_ & E1 & _). now destruct (E1 i Hi).
Qed.
End Extract.

(** both kinds of cost variables of a trajectory are evaluated in the same way *)
Lemma evaluate_traj (frame : bool) k t x : consistent t -> tj_dim t = length (k_via k) -> tj_ts t <> [] ->
  (frame = true -> forall l, tj_misc t <> Some (V1 l)) -> exists c, as_cost_vars frame t = Ok c /\
  evaluate_rollout k c x = evaluate_local k (tj_ts t) (mrows (tj_ys t)) (tj_ydds t) x.
Proof.
  intros Hc Hd Hne Hm. unfold evaluate_rollout, n_dims. rewrite <- Hd. destruct frame; cbn [as_cost_vars].
  - destruct (dataframe_ok t Hc Hne (Hm eq_refl)) as (M & EM & EF). rewrite EF. cbn [bind fst snd]. eexists. split; [reflexivity|].
    rewrite (frame_t t M Hc EM). cbn [bind extract_y extract_ydd]. rewrite (frame_ys t M Hc EM). cbn [bind]. rewrite (frame_ydds t M Hc EM). reflexivity.
  - destruct (as_matrix_rows t Hc) as (M & EM & SM & _). rewrite EM. cbn [bind]. eexists. split; [reflexivity|].
    cbn [extract_t extract_y extract_ydd]. pose proof SM as (C & _). destruct (Nat.eqb_spec (mcols M) 0); [lia|]. cbn [bind].
    rewrite (times_col t M Hc EM). rewrite (cols_ys t M Hc EM), (cols_ydds t M Hc EM). reflexivity.
Qed.
Theorem traj_costs (frame : bool) k t x : consistent t -> tj_dim t = length (k_via k) -> (0 < tj_dim t)%nat -> tj_ts t <> [] ->
  (frame = true -> forall l, tj_misc t <> Some (V1 l)) -> goal_ready k (tj_ts t) ->
  exists c cs, as_cost_vars frame t = Ok c /\ evaluate_rollout k c x = Ok cs /\
    costs_are k (tj_ts t) (at2 (tj_ys t)) (at2 (tj_ydds t)) (tj_dim t) x cs.
Proof.
  intros Hc Hd Hpos Hne Hm Hg. destruct (evaluate_traj frame k t x Hc Hd Hne Hm) as (c & Ec & Ev).
  pose proof Hc as ((C1 & N1 & F1) & _ & S3 & _).
  destruct (evaluate_local_ok k (tj_ts t) (mrows (tj_ys t)) (tj_ydds t) (tj_dim t) x) as (cs & E & H); trivial.
  { intros r Hr. rewrite <- Hd. now apply F1. }
  exists c, cs. rewrite Ev. split; [exact Ec|]. split; [exact E|]. exact H.
Qed.

(** the costs only depend on the rows and dimensions there are *)
Lemma dist_ext n a b a' : (forall i, (i < n)%nat -> a i = a' i) -> dist n a b = dist n a' b.
Proof. intros H. unfold dist. f_equal. apply sumn_ext. intros i Hi. now rewrite H. Qed.
Lemma costs_ext k ts Y A Y' A' da x cs : ts <> [] -> (forall i j, (i < length ts)%nat -> (j < length (k_via k))%nat -> Y i j = Y' i j) ->
  (forall i j, (i < length ts)%nat -> (j < da)%nat -> A i j = A' i j) -> costs_are k ts Y A da x cs -> costs_are k ts Y' A' da x cs.
Proof.
  intros Hne HY HA (L & S & V1 & V0 & A1 & A0 & G1 & G0 & R1 & R0).
  assert (Hpos : (0 < length ts)%nat) by (destruct ts; [easy|cbn; lia]).
  assert (D : forall i b, (i < length ts)%nat -> dist (length (k_via k)) (Y i) b = dist (length (k_via k)) (Y' i) b) by (intros; apply dist_ext; auto).
  unfold costs_are. split; [exact L|]. split; [exact S|].
  split. { intros W. destruct (V1 W) as (w & C & ->). assert (Hw : (w < length ts)%nat). { unfold counts in C. destruct (k_time k); [destruct C as [C|C]; [tauto|destruct C; lia]|tauto]. }
    exists w. split; [|now rewrite D]. unfold counts in *. destruct (k_time k); [exact C|]. destruct C as (_ & C1 & C2). split; [exact Hw|]. split.
    - intros i Hi. rewrite <- !D by assumption. now apply C1.
    - intros i Hi. rewrite <- !D by lia. now apply C2. }
  split; [exact V0|]. split. { intros W. rewrite (A1 W). do 3 f_equal. apply sumn_ext. intros i Hi. apply sumn_ext. intros j Hj. now rewrite HA. }
  split; [exact A0|]. split.
  { intros g gt W Eg Et. rewrite (G1 g gt W Eg Et). do 3 f_equal. apply map_ext_in. intros i Hi. apply D. now apply late_lt with gt. }
  split; [exact G0|]. split; [exact R1|exact R0].
Qed.

(** a rollout of the task solver is a consistent trajectory *)
Lemma as_traj_ok n (ts : list R) (f g h : nat -> nat -> R) : exists t,
  as_traj n (map (fun k => (nth k ts 0, (map (f k) (seq 0 n), map (g k) (seq 0 n), map (h k) (seq 0 n)))) (seq 0 (length ts))) = Ok t /\
  consistent t /\ tj_ts t = ts /\ tj_dim t = n /\ tj_misc t = None /\
  forall k i, (k < length ts)%nat -> (i < n)%nat -> at2 (tj_ys t) k i = f k i /\ at2 (tj_yds t) k i = g k i /\ at2 (tj_ydds t) k i = h k i.
Proof.
  unfold as_traj. rewrite !map_map. cbn [fst snd]. rewrite <- (list_eq_map_nth 0 ts).
  set (N := length ts).
  assert (S : forall (f : nat -> nat -> R), samples N n (Mat n (map (fun x => map (f x) (seq 0 n)) (seq 0 N)))).
  { intros f0. split; [reflexivity|]. cbn [mrows]. split; [now rewrite map_length, seq_length|]. intros r Hr. apply in_map_iff in Hr as (k & <- & _). now rewrite map_length, seq_length. }
  assert (T : forall (f : nat -> nat -> R) k i, (k < N)%nat -> (i < n)%nat -> at2 (Mat n (map (fun x => map (f x) (seq 0 n)) (seq 0 N))) k i = f k i).
  { intros f0 k i Hk Hi. unfold at2. cbn [mrows]. rewrite (nth_map_seq (fun x => map (f0 x) (seq 0 n))) by exact Hk. now apply (nth_map_seq (f0 k)). }
  unfold new_traj. cbn [rows_of]. unfold nrows. cbn [mrows]. rewrite map_length, seq_length. fold N. rewrite Nat.eqb_refl. cbn [column bind derivative].
  assert (SS : forall f g : nat -> nat -> R, same_shape (Mat n (map (fun x => map (f x) (seq 0 n)) (seq 0 N))) (Mat n (map (fun x => map (g x) (seq 0 n)) (seq 0 N))) = true).
  { intros f0 g0. apply same_shape_iff. unfold nrows. cbn [mrows mcols]. now rewrite !map_length. }
  rewrite !SS. cbn [bind]. eexists. split; [reflexivity|]. cbn [tj_ts tj_dim tj_misc tj_ys tj_yds tj_ydds mcols].
  split. { unfold consistent. cbn [tj_ts tj_dim tj_misc tj_ys tj_yds tj_ydds mcols]. fold N. split; [apply S|]. split; [apply S|]. split; [apply S|]. discriminate. }
  do 3 (split; [reflexivity|]). intros k i Hk Hi. rewrite !T by assumption. auto.
Qed.

Lemma rollout_spec_of pf s x m' : wf pf m' -> m_set_params (o_dmp s) x = (m', Ok tt) -> (1 <= o_n s)%Z ->
  exists ts r, linspace0 (o_time s) (o_n s) = Ok ts /\ ts <> [] /\ ana pf m' ts false = Ok r /\
    snd (rollout pf s x) = Ok (map (fun k =>
      (nth k ts 0, (map (yv (a_xs r) k) (seq 0 (m_dim m')), map (yv (a_xds r) k) (seq 0 (m_dim m')),
                    map (fun i => zv (m_dim m') (a_xds r) k i / m_tau m') (seq 0 (m_dim m'))))) (seq 0 (length ts))).
Proof.
  intros W E Hn. destruct (linspace_spec (o_time s) (o_n s) Hn) as (ts & Ets & L & _).
  assert (Hne : ts <> []) by (intros ->; cbn in L; lia).
  destruct (ana_total pf m' ts false W Hne) as (r & Er & _). exists ts, r. split; [trivial|]. split; [trivial|]. split; [trivial|].
  unfold rollout. rewrite E. cbn [snd]. unfold rollout_dmp. cbn [o_time o_n]. rewrite Ets. cbn [bind]. rewrite Er. cbn [bind].
  rewrite (states_rows pf m' ts false r W Er). cbn [bind]. f_equal.
  set (f := fun k => _). assert (G : forall (l : list R) j g, combine l (map g (seq j (length l))) = map (fun k => (nth (k - j) l 0, g k)) (seq j (length l)) :> list (R * (list R * list R * list R))).
  { induction l as [|a l IH]; intros j g; [reflexivity|]. cbn [length seq map combine]. rewrite IH, Nat.sub_diag. cbn [nth]. f_equal.
    apply map_ext_in. intros k Hk. apply in_seq in Hk. replace (k - j)%nat with (S (k - S j)) by lia. reflexivity. }
  rewrite G. apply map_ext. intros k. now rewrite Nat.sub_0_r.
Qed.
Theorem sample_costs pf (frame : bool) s k x m' : wf pf m' -> m_set_params (o_dmp s) x = (m', Ok tt) -> (1 <= o_n s)%Z ->
  m_dim m' = length (k_via k) -> (0 < m_dim m')%nat ->
  exists ts r, linspace0 (o_time s) (o_n s) = Ok ts /\ ana pf m' ts false = Ok r /\
  (goal_ready k ts -> exists cs, snd (cost_of_sample pf s frame k x) = Ok cs /\
     costs_are k ts (yv (a_xs r)) (fun j i => zv (m_dim m') (a_xds r) j i / m_tau m') (m_dim m') x cs).
Proof.
  intros W E Hn Hd Hpos. destruct (rollout_spec_of pf s x m' W E Hn) as (ts & r & Ets & Hne & Er & Es). exists ts, r. split; [exact Ets|]. split; [exact Er|]. intros Hg.
  destruct (as_traj_ok (m_dim m') ts (yv (a_xs r)) (yv (a_xds r)) (fun j i => zv (m_dim m') (a_xds r) j i / m_tau m')) as (t & Et & Hc & T1 & T2 & T3 & T4).
  destruct (traj_costs frame k t x) as (c & cs & Ec & Ev & H); first [exact Hc|rewrite T2; assumption|rewrite T1; assumption|intros; congruence|trivial].
  exists cs. split.
  - unfold cost_of_sample. assert (Eo : o_dmp (fst (rollout pf s x)) = m') by (unfold rollout; rewrite E; reflexivity).
    destruct (rollout pf s x) as (s', rr). cbn [fst snd] in *. rewrite Es, Eo. cbn [bind]. rewrite Et. cbn [bind]. rewrite Ec. exact Ev.
  - rewrite T1, T2 in H. revert H. apply costs_ext; [exact Hne| |].
    + intros i j Hi Hj. now destruct (T4 i j Hi ltac:(lia)).
    + intros i j Hi Hj. now destruct (T4 i j Hi Hj) as (_ & _ & ->).
Qed.

Lemma set_params_dim m v : m_dim (fst (m_set_params m v)) = m_dim m.
Proof.
  unfold m_set_params. destruct (dmp_set (pdmp_of m) v) as (p, [u|e]); [|reflexivity]. destruct (mem "goal" (m_sel m)); [|reflexivity].
  now destruct (goal_attr _ _).
Qed.
(** earlier samples do not matter *)
Theorem sample_history pf (frame : bool) s k hs x : wf pf (o_dmp s) -> selectable_dmp (pdmp_of (o_dmp s)) ->
  snd (cost_of_sample pf (rollouts pf s hs) frame k x) = snd (cost_of_sample pf s frame k x).
Proof.
  intros W Hs. pose proof (history_free (o_dmp s) Hs (wf_attr_len pf _ W) pf s hs x eq_refl) as H.
  unfold cost_of_sample.
  assert (D : m_dim (o_dmp (fst (rollout pf (rollouts pf s hs) x))) = m_dim (o_dmp (fst (rollout pf s x)))).
  { assert (D1 : forall s x, m_dim (o_dmp (fst (rollout pf s x))) = m_dim (o_dmp s)).
    { intros s0 x0. unfold rollout. pose proof (set_params_dim (o_dmp s0) x0) as K. destruct (m_set_params (o_dmp s0) x0) as (m, [u|e]); exact K. }
    assert (D2 : forall l s, m_dim (o_dmp (rollouts pf s l)) = m_dim (o_dmp s)).
    { clear - D1. induction l as [|h l IH]; intros s0; [reflexivity|]. cbn [rollouts]. now rewrite IH, D1. }
    now rewrite !D1, D2. }
  destruct (rollout pf (rollouts pf s hs) x) as (s1, r1), (rollout pf s x) as (s2, r2). cbn [fst snd] in *. now rewrite H, D.
Qed.
