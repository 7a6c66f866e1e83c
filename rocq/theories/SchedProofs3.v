(** DMPs with schedules: training. *)
From Coq Require Import String.
From Verif Require Import Base BaseLemmas DynModel DynSpec DynProofs ParamModel ParamSpec ParamProofs ParamProofs2 TrajModel DmpModel DmpSpec DmpProofs DmpProofs2 DmpProofs3 DmpProofs4 DmpProofs5 DmpProofs6 DmpProofs7 DmpProofs8 DmpProofs9 DmpProofs10 DmpProofs13 SchedModel SchedSpec SchedProofs.
Open Scope R_scope.

Lemma limited_id lo hi i v : in_bounds lo hi i v -> limited lo hi i v = v.
Proof.
  intros [A B]. unfold limited. assert (E : match arg_at lo i with Some l => Rmax l v | None => v end = v).
  { destruct (arg_at lo i) as [l|]; [|reflexivity]. apply Rmax_right. now apply A. }
  rewrite E. destruct (arg_at hi i) as [h|]; [|reflexivity]. apply Rmin_right. now apply B.
Qed.
Section S.
Variables (pf : nat -> list (string * pval) -> R -> res R) (tf : nat -> list R -> list R -> res (list (string * pval))).
Variables (sf : nat -> list (string * pval) -> R -> res R) (st : nat -> list R -> list R -> res (list (string * pval))).

Lemma phases_ok m ts r : wf pf m -> ts <> [] -> ana pf m ts false = Ok r ->
  exists phs, mapM (phase_of m) (a_xs r) = Ok phs /\ length phs = length ts /\
    forall k, (k < length ts)%nat -> phase_at m (nth k ts 0) (nth k phs 0).
Proof.
  intros W Hne Er. destruct (ana_total pf m ts false W Hne) as (r' & Er' & S). rewrite Er in Er'. injection Er' as <-.
  destruct S as (L1 & _ & _ & _ & Lr & _). destruct (phase_fun pf m W) as (P & HP & HP2).
  exists (map (fun k => nth (3 * m_dim m) (nth k (a_xs r) []) 0) (seq 0 (length ts))). split.
  - transitivity (mapM (phase_of m) (map (fun k => nth k (a_xs r) []) (seq 0 (length ts)))).
    { f_equal. rewrite <- L1. apply list_eq_map_nth. }
    rewrite mapM_map. apply mapM_seq_ok. intros k Hk. apply phase_ok; [exact (d_goal_wf pf m W)|now apply Lr].
  - split; [now rewrite map_length, seq_length|]. intros k Hk. rewrite nth_map_seq by trivial.
    specialize (HP2 ts false r k Er Hk). unfold pv, at_ in HP2. rewrite HP2. apply HP.
Qed.

Lemma train_sched_ok w t g w' : predicts pf tf -> sound pf (w_dmp w) -> demo (m_dim (w_dmp w)) t -> last (tj_ts t) 0 <> 0 ->
  goal_accepts (w_dmp w) (nth 0 (mrows (tj_ys t)) []) -> train_sched pf tf st w t g = Ok w' ->
  m_train pf tf (w_dmp w) t = Ok (w_dmp w') /\ w_lo w' = w_lo w /\ w_hi w' = w_hi w /\ length (w_fas w') = length (w_fas w) /\
  exists s phs, sched_targets w t g = Ok s /\ mcols s = length (w_fas w) /\ length phs = length (tj_ts t) /\
    (forall k, (k < length (tj_ts t))%nat -> phase_at (w_dmp w') (nth k (tj_ts t) 0) (nth k phs 0)) /\
    forall i f, nth_error (w_fas w) i = Some f -> exists ps, st i phs (col i (mrows s)) = Ok ps /\
      nth_error (w_fas w') i = Some (Fa ps (Some 1%nat) (f_sel f)).
Proof.
  intros [_ Pr] S Dm Hl Hg E. unfold train_sched in E. destruct (m_train pf tf (w_dmp w) t) as [m'|] eqn:Em; [|discriminate]. cbn [bind] in E.
  destruct (train_ok pf tf (w_dmp w) t m' (fun i phs ys ps H ph => Pr i phs ys ps ph H) S Dm Hl Hg Em) as ((_ & _ & _ & _ & Ets & _) & W' & _).
  unfold m_ana in E. rewrite Ets in E. destruct (ana pf m' (tj_ts t) false) as [r|] eqn:Er; [|discriminate]. cbn [bind] in E.
  pose proof (ana_nonempty pf m' (tj_ts t) false r Er W') as Hne.
  destruct (phases_ok m' (tj_ts t) r W' Hne Er) as (phs & Ep & Lp & Hp). rewrite Ep in E. cbn [bind] in E.
  destruct (sched_targets w t g) as [s|] eqn:Es; [|discriminate]. cbn [bind] in E.
  destruct (mapM _ _) as [fs|] eqn:Ef; [|discriminate]. cbn [bind] in E. injection E as <-. cbn [w_dmp w_lo w_hi w_fas].
  pose proof (mapM_ok_length _ _ _ Ef) as Lf. rewrite seq_length in Lf.
  split; [reflexivity|]. do 2 (split; [reflexivity|]). split; [exact Lf|]. exists s, phs. split; [reflexivity|].
  split. { unfold sched_targets in Es. destruct (match g with GNone => _ | GArr _ => _ | GList _ => _ end) as [[[l|s']|]|]; try discriminate. cbn [bind] in Es.
    destruct (Nat.eqb_spec (mcols s') (length (w_fas w))); [|discriminate]. now injection Es as <-. }
  split; [exact Lp|]. split; [exact Hp|]. intros i f Hi.
  assert (Hlt : (i < length (w_fas w))%nat) by (apply nth_error_Some; congruence).
  pose proof (mapM_nth _ _ _ Ef i 0%nat (Fa [] None None) ltac:(now rewrite seq_length)) as Hn.
  rewrite seq_nth in Hn by trivial. cbn [Nat.add] in Hn. unfold nth_res in Hn. rewrite Hi in Hn. cbn [bind] in Hn.
  destruct (st i phs (col i (mrows s))) as [ps|]; [|discriminate]. exists ps. split; [reflexivity|]. cbn [bind] in Hn. injection Hn as Hn.
  rewrite (nth_error_nth' _ (Fa [] None None)) by lia. now rewrite <- Hn.
Qed.
Lemma train_sched_total w t s m' : predicts pf tf -> sound pf (w_dmp w) -> demo (m_dim (w_dmp w)) t -> last (tj_ts t) 0 <> 0 ->
  goal_accepts (w_dmp w) (nth 0 (mrows (tj_ys t)) []) -> m_train pf tf (w_dmp w) t = Ok m' ->
  tj_misc t = Some (V2 s) -> mcols s = length (w_fas w) -> (forall i phs ys, exists ps, st i phs ys = Ok ps) ->
  exists w', train_sched pf tf st w t GNone = Ok w'.
Proof.
  intros [_ Pr] S Dm Hl Hg Em Hs Hc Hst. unfold train_sched. rewrite Em. cbn [bind].
  destruct (train_ok pf tf (w_dmp w) t m' (fun i phs ys ps H ph => Pr i phs ys ps ph H) S Dm Hl Hg Em) as ((_ & _ & _ & _ & Ets & _) & W' & _).
  assert (Hne : tj_ts t <> []) by (intros E; unfold m_train in Em; rewrite E, last_res_nil in Em; discriminate).
  unfold m_ana. rewrite Ets. destruct (ana_total pf m' (tj_ts t) false W' Hne) as (r & Er & _). rewrite Er. cbn [bind].
  destruct (phases_ok m' (tj_ts t) r W' Hne Er) as (phs & Ep & _). rewrite Ep. cbn [bind].
  unfold sched_targets. rewrite Hs. cbn [bind]. rewrite Hc, Nat.eqb_refl. cbn [bind].
  match goal with |- context [mapM ?f ?l] => destruct (mapM f l) as [fs|e] eqn:Ef end; [now eexists|exfalso].
  assert (G : forall l, (forall i, In i l -> (i < length (w_fas w))%nat) -> exists fs, mapM (fun i => let* f := nth_res (w_fas w) i in
      let* ps := st i phs (col i (mrows s)) in Ok (Fa ps (Some 1%nat) (f_sel f))) l = Ok fs).
  { induction l as [|i l IH]; intros H; [now exists []|]. cbn [mapM].
    assert (Hi : nth_res (w_fas w) i = Ok (nth i (w_fas w) (Fa [] None None))) by (apply nth_res_ok, H; now left). rewrite Hi. cbn [bind].
    destruct (Hst i phs (col i (mrows s))) as [ps Eps]. rewrite Eps. cbn [bind].
    destruct (IH (fun j Hj => H j (or_intror Hj))) as [gs Egs]. rewrite Egs. eexists. reflexivity. }
  destruct (G (seq 0 (length (w_fas w)))) as [fs E]; [intros i Hi; apply in_seq in Hi; lia|]. congruence.
Qed.
(** the schedules of the demonstration are reproduced *)
Lemma train_reproduces w t w' lo hi s : predicts pf tf -> sound pf (w_dmp w) -> demo (m_dim (w_dmp w)) t -> last (tj_ts t) 0 <> 0 ->
  goal_accepts (w_dmp w) (nth 0 (mrows (tj_ys t)) []) -> train_sched pf tf st w t GNone = Ok w' -> tj_misc t = Some (V2 s) ->
  (forall i phs ys ps ph, st i phs ys = Ok ps -> exists v, sf i ps ph = Ok v) ->
  (forall i phs ps k, (i < length (w_fas w))%nat -> length phs = length (tj_ts t) -> (forall j, (j < length (tj_ts t))%nat -> phase_at (w_dmp w') (nth j (tj_ts t) 0) (nth j phs 0)) ->
     st i phs (col i (mrows s)) = Ok ps -> (k < length (tj_ts t))%nat -> sf i ps (nth k phs 0) = Ok (mget s k i)) ->
  bounded_by w lo hi ->
  exists r s', ana_sched pf sf w' None = Ok (r, In2 s') /\ nrows s' = length (tj_ts t) /\ mcols s' = mcols s /\
    forall k i, (k < length (tj_ts t))%nat -> (i < length (w_fas w))%nat ->
      mget s' k i = limited lo hi i (mget s k i) /\ (in_bounds lo hi i (mget s k i) -> mget s' k i = mget s k i).
Proof.
  intros Pr S Dm Hl Hg E Hs Ht Hfit B.
  destruct (train_sched_ok w t GNone w' Pr S Dm Hl Hg E) as (Em & El & Eh & Lf & s1 & phs & Es & Cs & Lp & Hp & Hfs).
  unfold sched_targets in Es. rewrite Hs in Es. cbn [bind] in Es. destruct (Nat.eqb _ _); [|discriminate]. injection Es as <-.
  pose proof Pr as [_ Pr2].
  destruct (train_ok pf tf (w_dmp w) t (w_dmp w') (fun i phs ys ps H ph => Pr2 i phs ys ps ph H) S Dm Hl Hg Em) as ((_ & _ & _ & _ & Ets & _) & W' & _).
  assert (Hne : tj_ts t <> []) by (intros E1; unfold m_train in Em; rewrite E1, last_res_nil in Em; discriminate).
  assert (Sr : sched_ready sf w').
  { intros i f Hi. assert (Hlt : (i < length (w_fas w))%nat) by (rewrite <- Lf; apply nth_error_Some; congruence).
    destruct (nth_error (w_fas w) i) as [f0|] eqn:E0; [|apply nth_error_None in E0; lia]. destruct (Hfs i f0 E0) as (ps & Eps & Ef).
    rewrite Ef in Hi. injection Hi as <-. cbn. split; [reflexivity|]. intros ph. eapply Ht, Eps. }
  assert (B' : bounded_by w' lo hi) by (unfold bounded_by in *; rewrite El, Eh, Lf; exact B).
  destruct (ana_sched_ok pf sf w' lo hi (tj_ts t) W' Sr B' Hne) as (r & s' & Ea & _ & N & C & _ & V).
  exists r, s'. split. { unfold ana_sched in *. rewrite Ets. exact Ea. }
  split; [exact N|]. split; [congruence|]. intros k i Hk Hi. rewrite <- Lf in Hi. destruct (V k i Hk Hi) as (ph & Hph & _ & Ev).
  rewrite Lf in Hi. destruct (nth_error (w_fas w) i) as [f0|] eqn:E0; [|apply nth_error_None in E0; lia]. destruct (Hfs i f0 E0) as (ps & Eps & Ef).
  assert (Q : sched_val sf w' ph i = mget s k i).
  { unfold sched_val. rewrite Ef. cbn [f_model]. rewrite <- (phase_at_fun _ _ _ _ (Hp k Hk) Hph). now rewrite (Hfit i phs ps k) by trivial. }
  rewrite Q in Ev. split; [exact Ev|]. intros Hb. rewrite Ev. now apply limited_id.
Qed.
(** an explicit argument for the schedules is never used *)
Lemma explicit_fails w t a : (2 <= length (nd_data a))%nat -> forall w', train_sched pf tf st w t (GArr a) <> Ok w'.
Proof.
  intros H w' E. unfold train_sched in E. destruct (m_train _ _ _ _); [|discriminate]. cbn [bind] in E. destruct (m_ana _ _ _ _); [|discriminate].
  cbn [bind] in E. destruct (mapM _ _); [|discriminate]. cbn [bind] in E. unfold sched_targets, arr_truth in E.
  destruct (nd_data a) as [|x [|]]; cbn in H; try lia. discriminate.
Qed.
Lemma explicit_error w t a w' : (2 <= length (nd_data a))%nat -> train_sched pf tf st w t GNone = Ok w' -> train_sched pf tf st w t (GArr a) = Err ValueError.
Proof.
  intros H E. unfold train_sched in *. destruct (m_train _ _ _ _); [|discriminate]. cbn [bind] in *. destruct (m_ana _ _ _ _); [|discriminate].
  cbn [bind] in *. destruct (mapM _ _); [|discriminate]. cbn [bind]. unfold sched_targets, arr_truth.
  destruct (nd_data a) as [|x [|]]; cbn in H; try lia. reflexivity.
Qed.
Lemma zero_ignored w t a : nd_data a = [0] -> train_sched pf tf st w t (GArr a) = train_sched pf tf st w t GNone.
Proof.
  intros H. unfold train_sched, sched_targets, arr_truth. rewrite H. destruct (Req_EM_T 0 0); [reflexivity|contradiction].
Qed.
Lemma list_fails w t r l : forall w', train_sched pf tf st w t (GList (r :: l)) <> Ok w'.
Proof.
  intros w' E. unfold train_sched in E. destruct (m_train _ _ _ _); [|discriminate]. cbn [bind] in E. destruct (m_ana _ _ _ _); [|discriminate].
  cbn [bind] in E. destruct (mapM _ _); [|discriminate]. discriminate.
Qed.
End S.
