(** Every recorded call is a call that was made, and how many calls there are. *)
From Coq Require Import String Ascii NArith.
From Verif Require Import Base BaseLemmas SessionModel SessionSpec UpdatersModel LoopModel LoopSpec LoopProofs.
Open Scope string_scope.

Section P.
Variables CV P S : Type.
Notation oval := (LoopModel.oval CV P).
Notation st := (LoopModel.st CV P S).
Variable category : oval -> ext.
Variable load : ext -> oval -> oval.
Variable orc : oracles CV S.
Notation genuine := (genuine orc).

Definition sound {A} (m : LoopModel.M CV P S A) : Prop := forall s s' r, m s = (s', r) ->
  forall e, In e (st_trace s') -> In e (st_trace s) \/ genuine e.
Lemma sound_ret {A} (a : A) : sound (LoopModel.ret CV P S a).
Proof. intros s s' r H. injection H as <- <-. auto. Qed.
Lemma sound_bind {A B} (m : LoopModel.M CV P S A) (k : A -> LoopModel.M CV P S B) :
  sound m -> (forall a, sound (k a)) -> sound (bindM CV P S m k).
Proof.
  intros Hm Hk s s' r H e He. unfold bindM in H. destruct (m s) as [s1 [a|er]] eqn:E.
  - destruct (Hk a s1 s' r H e He) as [H1|H1]; [|now right]. eapply Hm; eauto.
  - injection H as <- <-. eapply Hm; eauto.
Qed.
Lemma sound_call {A} (f : S -> S * res A) (ev : A -> event CV) :
  (forall o o' a, f o = (o', Ok a) -> genuine (ev a)) -> sound (call_out CV P S f ev).
Proof.
  intros Hf s s' r H e He. unfold call_out in H. destruct (f (st_out s)) as [o [a|er]] eqn:E; injection H as <- <-; cbn in He.
  - apply in_app_or in He. destruct He as [He|[<-|[]]]; [now left|right; eapply Hf; eauto].
  - now left.
Qed.
Lemma sound_db f : sound (on_db CV P S f).
Proof. intros s s' r H e He. injection H as <- <-. now left. Qed.
Lemma sound_map {A B} (f : A -> LoopModel.M CV P S B) l : (forall a, sound (f a)) -> sound (mapMM CV P S f l).
Proof.
  intros Hf. induction l as [|x l IH]; cbn [mapMM]; [apply sound_ret|].
  apply sound_bind; [apply Hf|]. intros y. apply sound_bind; [exact IH|]. intros ys. apply sound_ret.
Qed.
Ltac snd_calls := apply sound_call; cbn; eauto.
Lemma sound_eval x : sound (m_eval CV P S orc x). Proof. snd_calls. Qed.
Lemma sound_gen d n : sound (m_gen CV P S orc d n). Proof. snd_calls. Qed.
Lemma sound_roll x : sound (m_roll CV P S orc x). Proof. snd_calls. Qed.
Lemma sound_evalr v x : sound (m_evalr CV P S orc v x). Proof. snd_calls. Qed.
Lemma sound_upd d m cs : sound (m_upd CV P S orc d m cs).
Proof. apply sound_call. intros o o' [d' w] H. cbn. eauto. Qed.
Ltac go := repeat first [ apply sound_ret | apply sound_db | apply sound_eval | apply sound_gen | apply sound_roll
  | apply sound_evalr | apply sound_upd | apply sound_map; intros ? | apply sound_bind; [|intros ?] ].
Lemma sound_opt n k : forall i d, sound (opt_loop CV P S category orc n i k d).
Proof.
  induction k as [|k IH]; intros i d; cbn [opt_loop]; [apply sound_ret|].
  apply sound_bind; [|intros; apply IH]. unfold opt_update. go.
Qed.
Lemma sound_rollouts i xs : forall j, sound (rollouts CV P S category orc i j xs).
Proof. induction xs as [|x xs IH]; intros j; cbn [rollouts]; unfold add_rollout, m_tell; go. apply IH. Qed.
Lemma sound_task n k : forall i d, sound (task_loop CV P S category orc n i k d).
Proof.
  induction k as [|k IH]; intros i d; cbn [task_loop]; [apply sound_ret|].
  apply sound_bind; [|intros; apply IH]. unfold task_update, add_eval_task, m_add_eval, m_tell, m_add_update.
  repeat first [apply sound_rollouts | progress go].
Qed.

Lemma run_optimization_genuine w0 r cf up d0 k n (s s' : st) res :
  run_optimization CV P S category orc w0 r cf up d0 k n s = (s', res) ->
  forall e, In e (st_trace s') -> In e (st_trace s) \/ genuine e.
Proof. intros H e He. apply (sound_opt _ _ _ _ _ _ _ H e He). Qed.
Lemma run_optimization_task_genuine w0 r tk ts up d0 k n (s s' : st) res :
  run_optimization_task CV P S category orc w0 r tk ts up d0 k n s = (s', res) ->
  forall e, In e (st_trace s') -> In e (st_trace s) \/ genuine e.
Proof. intros H e He. apply (sound_task _ _ _ _ _ _ _ H e He). Qed.

(** ** counting *)
Lemma cost_calls_map2 xs cs : length cs = length xs -> cost_calls (CV:=CV) (map2 EEval xs cs) = xs.
Proof. revert cs. induction xs as [|x xs IH]; intros [|c cs] H; cbn in *; try discriminate; auto. f_equal. apply IH. lia. Qed.
Lemma cost_calls_app (a b : list (event CV)) : cost_calls (a ++ b)%list = (cost_calls a ++ cost_calls b)%list.
Proof. unfold cost_calls. now rewrite flat_map_app. Qed.
Lemma cost_calls_update n u : complete u -> cost_calls (CV:=CV) (events_of n u) = d_mean (u_dist u) :: mrows (u_samples u).
Proof.
  intros C. unfold events_of. rewrite !cost_calls_app. cbn [cost_calls flat_map app].
  fold (@cost_calls CV). rewrite cost_calls_map2 by exact C. now rewrite app_nil_r.
Qed.
Lemma run_optimization_calls w0 r cf up d0 k n (s s' : st) d' :
  (forall o d o' m, o_gen CV S orc o d n = (o', Ok m) -> length (mrows m) = Z.to_nat n) ->
  run_optimization CV P S category orc w0 r cf up d0 k n (St (st_out s) [] (st_db s)) = (s', Ok d') ->
  exists us, chained u_dist u_new d0 us d' /\ length us = k /\
    cost_calls (st_trace s') = flat_map (fun u => d_mean (u_dist u) :: mrows (u_samples u)) us /\
    Forall (fun u => length (mrows (u_samples u)) = Z.to_nat n) us /\
    length (cost_calls (st_trace s')) = (k * (Z.to_nat n + 1))%nat.
Proof.
  intros Hg H. pose proof (run_optimization_genuine _ _ _ _ _ _ _ _ _ _ H) as HG.
  destruct (run_optimization_full CV P S category load orc _ _ _ _ _ _ _ _ _ _ H) as (us & dl & rest & cs & Ch & Co & Tr & _ & _ & _ & Hk & -> & ->).
  cbn [st_trace app] in Tr. rewrite app_nil_r in Tr. exists us. split; [exact Ch|]. split; [exact Hk|].
  assert (Hc : cost_calls (st_trace s') = flat_map (fun u => d_mean (u_dist u) :: mrows (u_samples u)) us).
  { rewrite Tr. clear - Co. induction Co as [|u us C Co IH]; [reflexivity|]. cbn [flat_map]. rewrite cost_calls_app, IH, (cost_calls_update n u C). reflexivity. }
  assert (Hn : Forall (fun u => length (mrows (u_samples u)) = Z.to_nat n) us).
  { apply Forall_forall. intros u Hu.
    assert (He : In (EGen (u_dist u) n (u_samples u)) (st_trace s')).
    { rewrite Tr. apply in_flat_map. exists u. split; [exact Hu|]. cbn. auto. }
    destruct (HG _ He) as [[]|(o & o' & E)]. eapply Hg; eauto. }
  split; [exact Hc|]. split; [exact Hn|]. rewrite Hc. subst k. clear - Hn.
  induction Hn as [|u us Hu Hn IH]; [reflexivity|]. cbn [flat_map length]. rewrite app_length, IH. cbn [length]. lia.
Qed.
End P.
