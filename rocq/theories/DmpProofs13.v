(** Proofs about DMPs: layout, starting states, rows of the analytical solution, rollouts. *)
From Coq Require Import String.
From Verif Require Import Base BaseLemmas DynModel DynSpec DynProofs DynProofs6 ParamModel TrajModel DmpModel DmpSpec DmpProofs DmpProofs2 DmpProofs3 DmpProofs4 DmpProofs5 DmpProofs7.
Open Scope R_scope.

(** ** layout *)
Lemma indices_cover m : d_goal m = m_dim m ->
  (indices (ix_spring m) ++ indices (ix_goal m) ++ indices (ix_phase m) ++ indices (ix_gating m) ++ indices (ix_damping m))%list
  = seq 0 (dim_x m) /\ indices (ix_spring m) = (indices (ix_y m) ++ indices (ix_z m))%list.
Proof.
  intros H. unfold indices, ix_spring, ix_goal, ix_phase, ix_gating, ix_damping, ix_y, ix_z, dim_x. cbn [fst snd]. rewrite H.
  set (n := m_dim m). split.
  - replace (3 * n + 2 + n)%nat with (2 * n + (n + (1 + (1 + n))))%nat by lia.
    rewrite (seq_app (2 * n) (n + (1 + (1 + n)))), (seq_app n (1 + (1 + n))), (seq_app 1 (1 + n)), (seq_app 1 n).
    repeat (apply f_equal2; [f_equal; lia|]). f_equal; lia.
  - replace (2 * n)%nat with (n + n)%nat by lia. rewrite seq_app. f_equal.
Qed.
Lemma indices_overlap m : (d_goal m < m_dim m)%nat -> exists j, (j < dim_x m)%nat /\
  ~ In j (indices (ix_spring m) ++ indices (ix_goal m) ++ indices (ix_phase m) ++ indices (ix_gating m) ++ indices (ix_damping m))%list.
Proof.
  intros H. exists (dim_x m - 1)%nat. unfold indices, ix_spring, ix_goal, ix_phase, ix_gating, ix_damping, dim_x. cbn [fst snd].
  split; [lia|]. rewrite !in_app_iff, !in_seq. lia.
Qed.

Lemma mapM_map {A B C} (f : B -> res C) (g : A -> B) l : mapM f (map g l) = mapM (fun x => f (g x)) l.
Proof. induction l as [|x l IH]; cbn; [reflexivity|]. now rewrite IH. Qed.
Lemma nth_firstn_lt {A} (l : list A) n i d : (i < n)%nat -> nth i (firstn n l) d = nth i l d.
Proof. revert n i. induction l as [|x l IH]; intros [|n] [|i] H; cbn; try lia; trivial. apply IH. lia. Qed.

Section S.
Variable pf : nat -> list (string * pval) -> R -> res R.

(** ** the rows of the analytical solution *)
Lemma ana_nonempty m ts suppress r : ana pf m ts suppress = Ok r -> wf pf m -> ts <> [].
Proof.
  intros E W ->. destruct (wf_parts _ _ W) as (G & Gd & P & Pd & A & Ad & D & Dd & C & Cd & Q).
  unfold ana in E. rewrite (pt_EP _ _ _ _ _ _ _ _ _ _ _ Q), (pt_EA _ _ _ _ _ _ _ _ _ _ _ Q) in E. cbn [bind map mapM] in E.
  rewrite (factors_ok pf m W) in E. cbn [bind] in E. rewrite (pt_EG _ _ _ _ _ _ _ _ _ _ _ Q [] : match m_goal m with None => Ok ([], []) | Some g => sub_ana g [] end = _) in E.
  cbn [bind map] in E. rewrite (pt_ED _ _ _ _ _ _ _ _ _ _ _ Q [] : match m_damping m with None => Ok ([], []) | Some g => sub_ana g [] end = _) in E.
  cbn in E. destruct suppress; discriminate.
Qed.
Lemma rows_solve m ts r : wf pf m -> synced m -> plain_goal m -> ana pf m ts false = Ok r ->
  forall k, (k < length ts)%nat -> dmp_regular m (nth k ts 0) ->
    exists m', m_diffeq pf m (nth k (a_xs r) []) = Ok (m', nth k (a_xds r) []).
Proof.
  intros W Sy Pl Er k Hk Hr. destruct (wf_parts _ _ W) as (G & Gd & P & Pd & A & Ad & D & Dd & C & Cd & Q).
  destruct ts as [|t ts]; [cbn in Hk; lia|]. rewrite (ana_eq pf m G Gd P Pd A Ad D Dd C Cd W Q) in Er.
  apply (f_equal (fun x => match x with Ok y => y | Err _ => r end)) in Er. cbv beta iota in Er. subst r. cbn [a_xs a_xds].
  pose proof (L_length pf m G P A C false t ts) as LL.
  rewrite !(nth_map_l _ _ _ (0, [])) by (rewrite LL; exact Hk).
  apply (diffeq_row pf m G Gd P Pd A Ad D Dd C Cd W Q false); trivial.
  - apply (L_len pf m G P A C W); exact Hk.
  - rewrite (L_time pf m G P A C); exact Hr || exact Hk.
Qed.
Lemma start_first m ts suppress r : wf pf m -> synced m -> plain_goal m -> dmp_regular m 0 ->
  ana pf m (0 :: ts) suppress = Ok r ->
  exists m' xd, m_start pf m None = Ok (m', nth 0 (a_xs r) [], xd) /\ (suppress = false -> xd = nth 0 (a_xds r) []).
Proof.
  intros W Sy Pl Hr Er. destruct (wf_parts _ _ W) as (G & Gd & P & Pd & A & Ad & D & Dd & C & Cd & Q).
  destruct (start_ok pf m G Gd P Pd A Ad D Dd C Cd W Q Sy Pl Hr) as [m' E].
  rewrite (ana_eq pf m G Gd P Pd A Ad D Dd C Cd W Q) in Er.
  apply (f_equal (fun x => match x with Ok y => y | Err _ => r end)) in Er. cbv beta iota in Er. subst r. cbn [a_xs a_xds map nth].
  eexists m', _. split; [exact E|]. intros ->. reflexivity.
Qed.
Lemma start_state m : wf pf m -> synced m -> plain_goal m -> dmp_regular m 0 ->
  exists m' x xd, m_start pf m None = Ok (m', x, xd) /\ length x = dim_x m /\
    forall j, (j < 2 * m_dim m)%nat -> nth j x 0 = nth j (d_init (m_spring m)) 0.
Proof.
  intros W Sy Pl Hr. destruct (ana_total pf m [0] false W ltac:(discriminate)) as (r & Er & Hs).
  destruct (start_first m [] false r W Sy Pl Hr Er) as (m' & xd & E & _). exists m', (nth 0 (a_xs r) []), xd. split; [exact E|].
  destruct Hs as (_ & _ & _ & _ & Hl & _ & _ & _ & _ & _ & H0 & _). split; [apply (Hl 0%nat); cbn; lia|].
  intros j Hj. destruct (Nat.lt_ge_cases j (m_dim m)) as [H|H].
  - apply (H0 j H).
  - destruct (H0 (j - m_dim m)%nat ltac:(lia)) as [_ H1]. unfold zv, at_ in H1. replace (m_dim m + (j - m_dim m))%nat with j in H1 by lia. exact H1.
Qed.

(** ** states as trajectory *)
Lemma get_ix_row o l x : (o + l <= length x)%nat -> get_ix (o, l) x = Ok (map (fun i => nth (o + i) x 0) (seq 0 l)).
Proof.
  intros H. unfold get_ix. cbn [fst snd]. rewrite (proj2 (Nat.leb_le _ _) H). f_equal.
  assert (Hl : length (firstn l (skipn o x)) = l) by (apply firstn_length_le; rewrite skipn_length; lia).
  apply (nth_ext _ _ 0 0); rewrite Hl; [now rewrite map_length, seq_length|].
  intros i Hi. rewrite nth_map_seq by trivial. rewrite nth_firstn_lt by trivial.
  rewrite <- (firstn_skipn o x) at 2. rewrite app_nth2 by (rewrite firstn_length_le by lia; lia). rewrite firstn_length_le by lia. f_equal. lia.
Qed.
Lemma states_rows m ts suppress r : wf pf m -> ana pf m ts suppress = Ok r ->
  let n := m_dim m in
  states_as_rows m (a_xs r) (a_xds r) = Ok (map (fun k =>
    (map (yv (a_xs r) k) (seq 0 n), map (yv (a_xds r) k) (seq 0 n), map (fun i => zv n (a_xds r) k i / m_tau m) (seq 0 n)))
    (seq 0 (length ts))).
Proof.
  intros W Er n. pose proof (ana_nonempty m ts suppress r Er W) as Hne.
  destruct (ana_total pf m ts suppress W Hne) as (r' & E' & Hs). rewrite Er in E'. injection E' as <-.
  destruct Hs as (L1 & L2 & _ & _ & Hl & _). fold n in Hl.
  assert (EC : combine (a_xs r) (a_xds r) = map (fun k => (nth k (a_xs r) [], nth k (a_xds r) [])) (seq 0 (length ts))).
  { apply (nth_ext _ _ ([], []) ([], [])); rewrite combine_length, L1, L2, Nat.min_id; [now rewrite map_length, seq_length|].
    intros k Hk. rewrite nth_map_seq by trivial. now rewrite combine_nth by congruence. }
  unfold states_as_rows. rewrite EC, mapM_map. apply mapM_pure. intros k Hk. apply in_seq in Hk.
  destruct (Hl k ltac:(lia)) as (A1 & A2 & _). cbn [fst snd]. unfold ix_y, ix_z. fold n.
  rewrite !get_ix_row by (rewrite ?A1, ?A2; unfold dim_x; fold n; lia). cbn [bind].
  unfold vdiv. destruct (Req_EM_T (m_tau m) 0) as [H|_]; [now destruct W|]. cbn [bind]. rewrite map_map. reflexivity.
Qed.
End S.
