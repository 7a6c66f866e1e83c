(** DMPs with schedules: trajectories, construction from a demonstration. *)
From Coq Require Import String.
From Verif Require Import Base BaseLemmas DynModel DynSpec DynProofs ParamModel ParamSpec ParamProofs ParamProofs2 TrajModel DmpModel DmpSpec DmpProofs DmpProofs2 DmpProofs3 DmpProofs5 DmpProofs7 DmpProofs9 DmpProofs13 SchedModel SchedSpec SchedProofs SchedProofs2 SchedProofs3.
Open Scope R_scope.

Lemma mget_rows n (f : nat -> nat -> R) N k i : (k < N)%nat -> (i < n)%nat ->
  mget (Mat n (map (fun k => map (f k) (seq 0 n)) (seq 0 N))) k i = f k i.
Proof. intros Hk Hi. unfold mget. cbn [mrows]. now rewrite !nth_map_seq by trivial. Qed.
Section S.
Variables (pf : nat -> list (string * pval) -> R -> res R) (tf : nat -> list R -> list R -> res (list (string * pval))).
Variables (sf : nat -> list (string * pval) -> R -> res R) (st : nat -> list R -> list R -> res (list (string * pval))).

Lemma as_traj_ok w ts r s : wf pf (w_dmp w) -> ana pf (w_dmp w) ts false = Ok r ->
  let n := m_dim (w_dmp w) in
  if Nat.eqb (nrows s) (length ts)
  then exists t, as_traj_sched w ts (a_xs r) (a_xds r) s = Ok t /\ tj_ts t = ts /\ tj_misc t = Some (V2 s) /\ demo n t /\
    forall k i, (k < length ts)%nat -> (i < n)%nat ->
      mget (tj_ys t) k i = yv (a_xs r) k i /\ mget (tj_yds t) k i = yv (a_xds r) k i /\ mget (tj_ydds t) k i = zv n (a_xds r) k i / m_tau (w_dmp w)
  else as_traj_sched w ts (a_xs r) (a_xds r) s = Err ValueError.
Proof.
  intros W Er n. unfold as_traj_sched. rewrite (states_rows pf _ _ _ _ W Er). cbn [bind]. rewrite !map_map. cbn [fst snd]. fold n.
  assert (Nr : forall l : list (list R), nrows (Mat n l) = length l) by reflexivity.
  unfold new_traj. cbn [rows_of]. rewrite Nr, map_length, seq_length, Nat.eqb_refl. cbn [column bind derivative].
  assert (Ss : forall f g : nat -> nat -> R, same_shape (Mat n (map (fun k => map (f k) (seq 0 n)) (seq 0 (length ts)))) (Mat n (map (fun k => map (g k) (seq 0 n)) (seq 0 (length ts)))) = true).
  { intros f g. unfold same_shape, nrows. cbn [mrows mcols]. now rewrite !map_length, !Nat.eqb_refl. }
  rewrite (Ss (yv (a_xs r)) (yv (a_xds r))). cbn [bind]. rewrite (Ss (yv (a_xs r)) (fun k i => zv n (a_xds r) k i / m_tau (w_dmp w))). cbn [bind mcols].
  unfold set_misc. cbn [rows_of]. unfold tj_length. cbn [tj_ts]. destruct (Nat.eqb_spec (nrows s) (length ts)) as [N|N]; [|reflexivity].
  cbn [bind]. eexists. split; [reflexivity|]. unfold set_data. cbn [tj_ts tj_misc tj_ys tj_yds tj_ydds tj_dim tj_dt].
  split; [reflexivity|]. split; [reflexivity|]. split.
  - unfold demo. cbn [tj_ts tj_misc tj_ys tj_yds tj_ydds tj_dim tj_dt mcols mrows].
    assert (G : forall f : nat -> nat -> R, length (map (fun k => map (f k) (seq 0 n)) (seq 0 (length ts))) = length ts /\
        Forall (fun r => length r = n) (map (fun k => map (f k) (seq 0 n)) (seq 0 (length ts))) /\ n = n).
    { intros f. split; [now rewrite map_length, seq_length|]. split; [|reflexivity]. apply Forall_forall. intros l Hl. apply in_map_iff in Hl.
      destruct Hl as (k & <- & _). now rewrite map_length, seq_length. }
    split; [reflexivity|]. split; [apply G|]. split; [apply G|]. apply (G (fun k i => zv n (a_xds r) k i / m_tau (w_dmp w))).
  - intros k i Hk Hi. rewrite !mget_rows by trivial. split; [reflexivity|]. split; reflexivity.
Qed.
Lemma from_traj_eq ty t fas scheds lo hi kw g w : from_traj_sched pf tf st ty t fas scheds lo hi kw g = Ok w -> tj_ts t <> [] -> mrows (tj_ys t) <> [] ->
  exists m, new_dmp ty (last (tj_ts t) 0) (nth 0 (mrows (tj_ys t)) []) (last (mrows (tj_ys t)) []) fas kw = Ok m /\
    train_sched pf tf st (Wdmp m scheds (make_bound (length scheds) lo) (make_bound (length scheds) hi)) t g = Ok w.
Proof.
  intros E H1 H2. unfold from_traj_sched in E. rewrite (last_res_ok _ 0 H1) in E. cbn [bind] in E.
  rewrite (nth_res_ok _ 0 []) in E by (destruct (mrows (tj_ys t)); [congruence|cbn; lia]). cbn [bind] in E.
  rewrite (last_res_ok _ [] H2) in E. cbn [bind] in E. unfold new_wdmp in E. destruct (new_dmp _ _ _ _ _ _) as [m|]; [|discriminate].
  cbn [bind] in E. now exists m.
Qed.
(** the movement of a DMP from a demonstration is that of a DMP without schedules *)
Lemma from_traj_movement ty t fas scheds lo hi kw g w : from_traj_sched pf tf st ty t fas scheds lo hi kw g = Ok w ->
  from_traj pf tf ty t fas kw = Ok (w_dmp w).
Proof.
  unfold from_traj_sched, from_traj, new_wdmp. destruct (last_res (tj_ts t)); [|discriminate]. destruct (nth_res _ _); [|discriminate].
  cbn [bind]. destruct (last_res _); [|discriminate]. cbn [bind]. destruct (new_dmp _ _ _ _ _ _) as [m|]; [|discriminate]. cbn [bind].
  unfold train_sched. cbn [w_dmp]. destruct (m_train _ _ _ _) as [m'|]; [|discriminate]. cbn [bind]. destruct (m_ana _ _ _ _); [|discriminate]. cbn [bind].
  destruct (mapM _ _); [|discriminate]. cbn [bind]. destruct (sched_targets _ _ _); [|discriminate]. cbn [bind]. destruct (mapM _ _); [|discriminate].
  cbn [bind]. intros E. now injection E as <-.
Qed.
End S.
