(** A concrete DMP with two schedules which meets the hypotheses of the theorems. *)
From Coq Require Import String.
From Verif Require Import Base BaseLemmas DynModel DynSpec DynProofs ParamModel ParamSpec TrajModel DmpModel DmpSpec DmpProofs DmpProofs5 DmpProofs7 DmpProofs9 DmpProofs13 DmpExamples SchedModel SchedSpec SchedProofs SchedProofs2 SchedProofs3.
Open Scope R_scope.

(** the demonstration of DmpExamples with the schedules 1 + 2t and 5 - t *)
Definition ex_scheds : mat := Mat 2 [[1; 5]; [3; 4]; [5; 3]; [7; 2]].
Definition ex_demo_s : traj :=
  Traj [0; 1; 2; 3] (Some 1) 1 (Mat 1 [[0]; [0]; [1]; [3]]) (Mat 1 [[0]; [1]; [2]; [3]]) (Mat 1 [[1]; [1]; [1]; [1]]) (Some (V2 ex_scheds)).
(** function approximators for schedules: a line, as a function of the time which belongs to a phase *)
Definition ex_sf : nat -> list (string * pval) -> R -> res R := fun _ ps ph =>
  match ps with
  | [(_, PArr (Arr _ [a; b]))] => Ok (a + b * ex_time ph)
  | _ => Ok 0
  end.
Definition ex_st : nat -> list R -> list R -> res (list (string * pval)) := fun _ _ ys =>
  Ok [("weights"%string, PArr (Arr [2%nat] [nth 0 ys 0; nth 1 ys 0 - nth 0 ys 0]))].
Definition ex_lo : sbound_arg := AList [0; 3].
Definition ex_hi : sbound_arg := AList [6; 10].

Lemma ex_sf_total i ps ph : exists v, ex_sf i ps ph = Ok v.
Proof. unfold ex_sf. repeat match goal with |- context [match ?x with _ => _ end] => destruct x end; eauto. Qed.
Lemma ex_is_demo_s : demo 1 ex_demo_s.
Proof. repeat split; repeat constructor. Qed.
Lemma ex_new_s : exists w, new_wdmp Ijspeert 2 [5] [7] (Some [ex_fa]) [ex_fa; ex_fa] ex_lo ex_hi no_kw = Ok w /\ sound ex_pf (w_dmp w) /\
  m_dim (w_dmp w) = 1%nat /\ goal_accepts (w_dmp w) [0] /\ length (w_fas w) = 2%nat /\ bounded_by w ex_lo ex_hi /\
  m_phase (w_dmp w) = SubE (Esys 2 [1] [0] (PScal 4)) /\ m_gating (w_dmp w) = SubE (Esys 2 [1] [0] (PScal 4)) /\
  m_tau (w_dmp w) = 2 /\ m_fas (w_dmp w) = Some [ex_fa] /\ m_scaling (w_dmp w) = NoScaling /\ wf ex_pf (w_dmp w).
Proof.
  destruct ex_new as (m & E & S & _ & _ & Ed & Ef & _ & Es & Hg & _ & _ & Ega & Eph & _ & Et).
  destruct ex_wf as (m1 & E1 & W & _). assert (m1 = m) by congruence. subst m1.
  exists (Wdmp m [ex_fa; ex_fa] (SList [0; 3]) (SList [6; 10])). unfold new_wdmp. rewrite E. cbn [bind w_dmp w_fas length].
  split; [reflexivity|]. do 4 (split; [first [assumption|reflexivity]|]). split.
  { split; [right; left; exists [0; 3]; repeat split; discriminate|]. split; [right; left; exists [6; 10]; repeat split; discriminate|]. split; reflexivity. }
  do 5 (split; [assumption|]). exact W.
Qed.
(** training succeeds *)
Lemma ex_train_s : exists w w', new_wdmp Ijspeert 2 [5] [7] (Some [ex_fa]) [ex_fa; ex_fa] ex_lo ex_hi no_kw = Ok w /\
  sound ex_pf (w_dmp w) /\ m_dim (w_dmp w) = 1%nat /\ goal_accepts (w_dmp w) [0] /\ length (w_fas w) = 2%nat /\ bounded_by w ex_lo ex_hi /\
  train_sched ex_pf ex_tf ex_st w ex_demo_s GNone = Ok w' /\ wf ex_pf (w_dmp w') /\ sched_ready ex_sf w' /\ bounded_by w' ex_lo ex_hi /\
  length (w_fas w') = 2%nat /\ m_dim (w_dmp w') = 1%nat /\ m_tau (w_dmp w') = 3 /\ m_phase (w_dmp w') = SubE (Esys 3 [1] [0] (PScal 4)).
Proof.
  destruct ex_new_s as (w & E & S & Ed & Hg & Lf & B & Eph & Ega & Et & Ef & Es & W). exists w.
  assert (exists m', m_train ex_pf ex_tf (w_dmp w) ex_demo_s = Ok m') as [m' Em].
  { destruct (train_total ex_pf ex_tf (w_dmp w) ex_demo_s) as [m' E']; [..|now exists m']; trivial.
    - intros i phs ys ps H ph. unfold ex_pf. eauto.
    - intros. unfold ex_tf. eauto.
    - rewrite Ed. apply ex_is_demo_s.
    - discriminate.
    - cbn. lra.
    - intros fs. rewrite Ef, Ed. intros H. injection H as <-. cbn. lia.
    - intros c ts xs xds k Hc Ex Hk. rewrite Ega in Ex. cbn [sub_set_tau e_init e_attr e_alpha] in Ex.
      destruct (exp_gating c 4 Hc ts) as (xs' & xds' & E' & H). rewrite E' in Ex. injection Ex as <- <-. rewrite H by trivial.
      pose proof (exp_pos (- (4) * nth k ts 0 / c)). lra. }
  assert (Dm : demo (m_dim (w_dmp w)) ex_demo_s) by (rewrite Ed; apply ex_is_demo_s).
  assert (Hl : last (tj_ts ex_demo_s) 0 <> 0) by (cbn; lra).
  destruct (train_sched_total ex_pf ex_tf ex_st w ex_demo_s ex_scheds m' ex_predicts S Dm Hl Hg Em eq_refl) as [w' Ew].
  { now rewrite Lf. } { intros. unfold ex_st. eauto. }
  destruct (train_sched_ok ex_pf ex_tf ex_st w ex_demo_s GNone w' ex_predicts S Dm Hl Hg Ew) as (Em' & El & Eh & Lf' & s & phs & _ & _ & _ & _ & Hfs).
  pose proof ex_predicts as [_ P2].
  destruct (train_ok ex_pf ex_tf (w_dmp w) ex_demo_s (w_dmp w') (fun i phs ys ps H ph => P2 i phs ys ps ph H) S Dm Hl Hg Em') as ((T1 & _) & W' & Ed' & _ & _ & _ & KC & _).
  destruct KC as (K1 & _). rewrite Eph in K1. cbn in K1. cbn in T1. rewrite T1, Et in K1. replace (2 * (3 / 2)) with 3 in K1 by lra.
  exists w'. do 7 (split; [assumption|]). split; [exact W'|]. split.
  { intros i f Hi. assert (Hlt : (i < length (w_fas w))%nat) by (rewrite <- Lf'; apply nth_error_Some; congruence).
    destruct (nth_error (w_fas w) i) as [f0|] eqn:E0; [|apply nth_error_None in E0; lia]. destruct (Hfs i f0 E0) as (ps & Eps & Ef1).
    rewrite Ef1 in Hi. injection Hi as <-. cbn. split; [reflexivity|]. intros ph. apply ex_sf_total. }
  split; [unfold bounded_by in *; rewrite El, Eh, Lf'; exact B|]. split; [congruence|]. split; [congruence|]. split; [exact T1|exact K1].
Qed.
(** the function approximators fit the schedules *)
Lemma ex_fit w' : m_phase (w_dmp w') = SubE (Esys 3 [1] [0] (PScal 4)) -> forall i phs ps k, (i < 2)%nat -> length phs = length (tj_ts ex_demo_s) ->
  (forall j, (j < length (tj_ts ex_demo_s))%nat -> phase_at (w_dmp w') (nth j (tj_ts ex_demo_s) 0) (nth j phs 0)) ->
  ex_st i phs (col i (mrows ex_scheds)) = Ok ps -> (k < length (tj_ts ex_demo_s))%nat -> ex_sf i ps (nth k phs 0) = Ok (mget ex_scheds k i).
Proof.
  intros Eph i phs ps k Hi _ Hp Eps Hk. unfold ex_st in Eps. injection Eps as <-. unfold ex_sf. f_equal.
  destruct (Hp k Hk) as [xd E]. rewrite Eph in E. destruct (exp_gating 3 4 ltac:(lra) [nth k (tj_ts ex_demo_s) 0]) as (xs & xds & Ex & Hx).
  rewrite Ex in E. injection E as -> ->. specialize (Hx 0%nat ltac:(cbn; lia)). unfold at_ in Hx. cbn [nth] in Hx. rewrite Hx.
  assert (Et : forall t, ex_time (exp (- (4) * t / 3)) = t) by (intros t; unfold ex_time; rewrite ln_exp; field). rewrite Et.
  cbn in Hk. destruct i as [|[|]]; [..|lia]; destruct k as [|[|[|[|k]]]]; try lia; cbn; lra.
Qed.
